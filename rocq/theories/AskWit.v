(** Concrete documents for the fonts asked for (C111). *)
From Coq Require Import QArith.
From Verif Require Import GoStr Num Style Class Instr Engine Lines Proc RefEngine ProcView ImageFacts ProcWit LoadStyleSpec OutputSpec AskSpec.
Local Open Scope nat_scope.

Definition with_family (f : bytes) : Styled NumQ := mkStyled [[([0; 0], VStr (F:=NumQ) f)]] [].
Definition named_header : list (instr NumQ) := [IText (with_family ($"Times")) [ITextBlock ($"h")]].
Definition named_body : list (instr NumQ) := [ITable (XTable no_style 0 [XRow no_style [XCell no_style 1 1 [IParagraph (with_family ($"Courier")) ($"c")]]])].
Definition named_env : Env NumQ := doc_env [] named_header [] named_body.
Definition fonts_of (evs : list (event NumQ)) : list (Font NumQ) := flat_map (fun e => match ev_cmd e with Simple (ChangeFont f) => [f] | _ => [] end) evs.
Lemma fonts_of_in : forall evs f, In f (fonts_of evs) -> In (Simple (ChangeFont f)) (map ev_cmd evs).
Proof.
  intros evs f H. apply in_flat_map in H as (e & He & H). apply in_map_iff. exists e. split; [|exact He]. destruct (ev_cmd e) as [c| | |]; try destruct H. destruct c; try destruct H as [<- |[]]; destruct H || reflexivity.
Qed.
Definition all_fonts (evs : list (event NumQ)) : list (Font NumQ) := fonts_of evs ++ flat_map (fun e => flat_map (fun x : cb * list (event NumQ) => fonts_of (snd x)) (ev_calls e)) evs.
Lemma all_fonts_asked : forall evs f, In f (all_fonts evs) -> asked evs f.
Proof.
  intros evs f H. apply in_app_or in H as [H|H]; [left; exact (fonts_of_in _ _ H)|]. right. apply in_flat_map in H as ([c calls] & He & H). cbn [ev_calls] in H. apply in_flat_map in H as ([c' sub] & Hc & H).
  exists c', sub. split; [exact (K_now _ _ _ _ _ He Hc)|exact (fonts_of_in _ _ H)].
Qed.
Lemma family_asked : forall evs n, existsb (fun f => beqb (Family f) n) (all_fonts evs) = true -> exists f, asked evs f /\ Family f = n.
Proof. intros evs n H. apply existsb_exists in H as (f & Hf & E). exists f. split; [exact (all_fonts_asked _ _ Hf)|]. apply GoStrFacts.beqb_eq. exact E. Qed.
Ltac parts := repeat match goal with
  | H : In _ (_ :: _) |- _ => destruct H as [<- |H]
  | H : In _ [] |- _ => destruct H
  | H : part_of ?i _ |- _ => tryif is_var i then fail else (inversion H; subst; clear H)
  | H : Some _ = Some _ |- _ => injection H as <-
  | H : None = Some _ |- _ => discriminate H
  end.
Lemma named_asks : styled_by named_env [] /\ (forall n, named named_env [] n -> n = $"Times" \/ n = $"Courier") /\
  exists s : PS NumQ RefEngine, process named_env 2 ref_start = Ok None s /\
  exists f g h, asked (ps_trace s) f /\ asked (ps_trace s) g /\ asked (ps_trace s) h /\ Family f = $"Times" /\ Family g = $"Courier" /\ Family h = $"Arial".
Proof.
  split; [split; reflexivity|]. split.
  - intros n [(? & ? & ? & [] & _)|(j & st & m & (i & Hi & Hp) & E & Hm & Hf)]. change (In i (named_header ++ named_body)) in Hi. unfold named_header, named_body in Hi. cbn [app] in Hi. parts; cbn [styles_of] in E; parts;
      unfold no_style, with_family in Hm; cbn [st_mutators] in Hm; parts; destruct Hf as (p & x & Hi & Hf); destruct Hi as [Hi|[]];
      injection Hi as <- <-; destruct Hf as [[_ Hf]|[[Hf _]|[Hf _]]]; try discriminate Hf; injection Hf as <-; auto.
  - destruct (ok_none (process named_env 2 ref_start) (fun s => forallb (fun n => existsb (fun f => beqb (Family f) n) (all_fonts (ps_trace s))) [$"Times"; $"Courier"; $"Arial"] = true)) as (s & H1 & H2); [vm_compute; reflexivity|].
    exists s. split; [exact H1|]. cbn [forallb] in H2. apply andb_prop in H2 as [A1 H2]. apply andb_prop in H2 as [A2 H2]. apply andb_prop in H2 as [A3 _].
    destruct (family_asked _ _ A1) as (f & F1 & F2). destruct (family_asked _ _ A2) as (g & G1 & G2). destruct (family_asked _ _ A3) as (h & K1 & K2). exists f, g, h. auto 10.
Qed.
Definition plain_env : Env NumQ := doc_env [] [] [] [IText (with_text_color 255 0 0) [ITextBlock ($"a")]].
Lemma plain_asks : (forall j st, in_document plain_env j -> styles_of j = Some st -> forall y, SFont (e_mut plain_env st y) = SFont y /\ forall sel, SFont (e_mut_sel plain_env sel st y) = SFont y) /\
  exists s : PS NumQ RefEngine, process plain_env 2 ref_start = Ok None s /\ exists f, asked (ps_trace s) f.
Proof.
  split.
  - intros j st (i & Hi & Hp) E y. change (In i [IText (with_text_color 255 0 0) [ITextBlock ($"a")]]) in Hi. parts; cbn [styles_of] in E; parts; destruct y as [[] [[] [] []] [] cw [] [[] [] []] lw]; split; reflexivity.
  - destruct (ok_none (process plain_env 2 ref_start) (fun s => existsb (fun f => beqb (Family f) ($"Arial")) (all_fonts (ps_trace s)) = true)) as (s & H1 & H2); [vm_compute; reflexivity|].
    exists s. split; [exact H1|]. destruct (family_asked _ _ H2) as (f & Hf & _). exists f. exact Hf.
Qed.
