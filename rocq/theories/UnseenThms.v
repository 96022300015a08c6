(** Proofs for C114 *)
From Coq Require Import Permutation.
From Verif Require Import GoStr Num Style Class Instr Engine Layout Grid GridFacts Table Lines Proc SameRun ImageFacts EngineFacts UnseenSpec.
Local Open Scope nat_scope.

Definition f2_refl {A} (P : A -> A -> Prop) (H : forall a, P a a) : forall l, Forall2 P l l :=
  fix go l := match l with [] => Forall2_nil _ | a :: l' => Forall2_cons _ _ (H a) (go l') end.
Section Refl.
Context {F : Type}.
Lemma agrid_refl : forall r : xgridrow F, agrid eq r r.
Proof. intros [st areas]. constructor. reflexivity. Qed.
Fixpoint alike_refl (i : instr F) : alike eq i i :=
  match i with
  | IFont st => A_font _ _ _ eq_refl
  | ILineFeed x => A_lf _ x | ISetX x => A_setx _ x | ISetY x => A_sety _ x
  | IBox st iss => A_box _ _ _ _ _ eq_refl (f2_refl _ alike_refl iss)
  | IText st iss => A_text _ _ _ _ _ eq_refl (f2_refl _ alike_refl iss)
  | IImage st src => A_image _ _ _ src eq_refl
  | ITextBlock t => A_block _ t
  | IParagraph st t => A_par _ _ _ t eq_refl
  | ILineBreak => A_br _ | IPageBreak => A_newpage _
  | ITable (XTable st n rows) => A_table _ _ _ n _ _ eq_refl (f2_refl _ arow_refl rows)
  | ITableRow r => A_row _ _ _ (arow_refl r)
  | ITableCell c => A_cell _ _ _ (acell_refl c)
  | IGrid st rows parts => A_grid _ _ _ _ _ _ _ eq_refl (f2_refl _ agrid_refl rows) (f2_refl _ apart_refl parts)
  | IGridRow r => A_gridrow _ _ _ (agrid_refl r)
  | IGridPart p => A_gridpart _ _ _ (apart_refl p)
  end
with arow_refl (r : xrow F) : arow eq r r :=
  match r with XRow st cells => A_xrow _ _ _ _ _ eq_refl (f2_refl _ acell_refl cells) end
with acell_refl (c : xcell F) : acell eq c c :=
  match c with XCell st a b iss => A_xcell _ _ _ a b _ _ eq_refl (f2_refl _ alike_refl iss) end
with apart_refl (p : xgridpart F) : apart eq p p :=
  match p with XGridPart st area iss => A_xpart _ _ _ area _ _ eq_refl (f2_refl _ alike_refl iss) end.
End Refl.

Section Thms.
Context {F : Num} (env : Env F) {eng : Engine F}.
Hypothesis Hsh : forall l, Permutation (e_shuffle env l) l.
Variables header footer body : list (instr F).
Local Notation env' := (with_parts header footer body env).

Lemma unseen_noop : forall callback i, unseen env i -> forall s : PS F eng, processInstruction env callback i s = Ok tt s.
Proof.
  intros callback i H s. destruct H; try reflexivity; [|apply grid_noop, Hsh].
  cbn [processInstruction]. unfold bind, lift. unfold renderImage. rewrite H.
  unfold page_now, sbind, query. destruct (printableArea (ps_eng s)) as [[[x0 y0] x1] y1]. reflexivity.
Qed.
Lemma one_same : forall cb1 cb2, (forall c (s : PS F eng), cb1 c s = cb2 c s) -> forall i s, processInstruction env cb1 i s = processInstruction env' cb2 i s.
Proof.
  intros cb1 cb2 H i s. apply processInstruction_same with (same := eq); try assumption; try reflexivity; [|apply alike_refl].
  intros st1 st2 <-. split; reflexivity.
Qed.
Lemma list_same : forall cb1 cb2, (forall c (s : PS F eng), cb1 c s = cb2 c s) -> forall l l', thinned (unseen env) l l' ->
  forall s, processInstructions env cb1 l s = processInstructions env' cb2 l' s.
Proof.
  intros cb1 cb2 H l l' T. induction T as [|i l l' T IH|i l l' U T IH]; intro s; [reflexivity| |]; cbn [processInstructions].
  - apply bind_ext; [intro; apply one_same, H|intros _; exact IH].
  - unfold bind at 1. rewrite (unseen_noop cb1 i U s). apply IH.
Qed.
Lemma thinned_run : thinned (unseen env) (e_header env) header -> thinned (unseen env) (e_footer env) footer -> thinned (unseen env) (e_body env) body ->
  forall depth (e : est eng), process env' depth e = process env depth e.
Proof.
  intros Th Tf Tb.
  assert (C : forall depth c (s : PS F eng), callbacks env depth c s = callbacks env' depth c s).
  { induction depth as [|d IH]; intros c s; [reflexivity|]. cbn [callbacks]. unfold run_callback. revert s. apply bind_ext; [reflexivity|intro xy].
    apply bind_ext; [reflexivity|intros _]. apply bind_ext; [|reflexivity]. intro s. apply list_same; [exact IH|]. destruct c; assumption. }
  intros depth e. symmetry. unfold process. change (initial e) with (initial e). generalize (initial (F:=F) (eng:=eng) e). unfold process_body.
  do 3 (apply bind_ext; [reflexivity|intros _]). apply bind_ext; [reflexivity|intro y]. apply bind_ext; [reflexivity|intros _].
  apply bind_ext; [intro; apply command_same, C|intros _]. apply bind_ext; [intro; apply list_same; [apply C|exact Tb]|intros _]. apply bind_ext; [reflexivity|intro err].
  intro s. destruct err; [reflexivity|]. apply bind_ext; [intro; apply command_same, C|reflexivity].
Qed.
End Thms.
