(** The styles and the shape of loaded documents (C87, C88). *)
From Coq Require Import ZArith Lia.
From Verif Require Import GoStr GoStrFacts Num Style Class ClassView ClassSpec ClassFacts Instr Xml Load LoadSpec LoadDocSpec LoadFacts LoadInv LoadSim LoadTree LoadReads LoadDoc LoadRun LoadIs LoadTokens LoadThms LoadStyleSpec.
Local Open Scope nat_scope.

Section Style.
Context {F : Num}.
Variables parse_float convert_float : bytes -> option F.
Variable order : nat -> bool -> nat -> rawmap -> rawmap.
Variable sheet_order : nat -> rawmap -> rawmap.
Hypothesis Horder : forall pos b, map_orders (order pos b).
Hypothesis Hsheet : map_orders sheet_order.
Local Notation instr := (instr F).
Local Notation styled := (decode_styled F parse_float convert_float order).
Local Notation load := (load F parse_float convert_float order sheet_order).

Definition fine (st : Styled F) : Prop := Forall (fun m => forall s, exists s', mutate m s = Some s') (st_mutators st).
Definition own_ok (j : instr) : Prop :=
  (forall st, styles_of j = Some st -> fine st) /\
  match j with IGrid _ rows parts => valid_grid rows parts | ITextBlock t => t <> [] | _ => True end.
Definition sound (i : instr) : Prop := forall j, part_of i j -> own_ok j.

Lemma styled_fine : forall pos b a st st', fine st -> styled pos b a st = Some st' -> fine st'.
Proof.
  intros pos b a st st' H E. unfold decode_styled in E. apply (attrs_go F parse_float convert_float (order pos b) (Horder pos b)) in E as (ms & E & Hf & _).
  unfold fine in *. rewrite E. apply Forall_app. split; [exact H|]. clear - Hf. induction Hf as [|x m l ms D _ IH]; constructor; [|exact IH].
  intro s. eapply mutate_decoded. exact D.
Qed.
Lemma fine_none : fine none.
Proof. constructor. Qed.
Lemma fine_fields : forall kids, fine (field_styles kids).
Proof.
  intro kids. unfold fine, field_styles. cbn [st_mutators]. apply Forall_forall. intros m Hm. apply in_flat_map in Hm as (k & _ & Hm).
  destruct k as [p n a ks|t|]; [destruct (beqb n ($"Mutators"))| |]; try contradiction. destruct Hm as [<-|[]]. intro s. exists s. reflexivity.
Qed.

Lemma sound_parts : forall i, own_ok i -> (forall j, part_of i j -> j = i \/ own_ok j) -> sound i.
Proof. intros i H K j Hj. destruct (K j Hj) as [->|K']; assumption. Qed.
Lemma sound_all :
  (forall t o, reads parse_float styled t o -> forall i, o = Some i -> sound i) /\
  (forall ts l, strict parse_float styled ts l -> Forall sound l) /\ (forall ts l, loose parse_float styled ts l -> Forall sound l).
Proof.
  assert (L : forall l i j, Forall sound l -> In i l -> part_of i j -> own_ok j).
  { intros l i j Hl Hi. rewrite Forall_forall in Hl. apply (Hl i Hi). }
  assert (TX : forall t, @Forall instr sound (text t)).
  { intros [|c t]; constructor; [|constructor]. intros j H. inversion H; subst. split; [discriminate|discriminate]. }
  assert (S1 : forall p b a st (f : Styled F -> instr) i, fine st -> option_map f (styled p b a st) = Some i -> exists st', i = f st' /\ fine st').
  { intros p b a st f i Hf H. destruct (styled p b a st) as [st'|] eqn:E; [|discriminate H]. injection H as <-. exists st'. split; [reflexivity|]. eapply styled_fine; [exact Hf|exact E]. }
  assert (OK : forall (j : instr) st, styles_of j = Some st -> fine st -> match j with IGrid _ rows parts => valid_grid rows parts | ITextBlock t => t <> [] | _ => True end -> own_ok j).
  { intros j st E Hf Hm. split; [|exact Hm]. intros st' E'. rewrite E in E'. injection E' as <-. exact Hf. }
  assert (PL : forall j : instr, styles_of j = None -> match j with IGrid _ rows parts => valid_grid rows parts | ITextBlock t => t <> [] | _ => True end -> own_ok j).
  { intros j E Hm. split; [|exact Hm]. intros st' E'. congruence. }
  apply (reads_all F parse_float styled).
  1,2,3: intros p a kids i H; apply S1 in H as (st & -> & Hf); [|apply fine_fields]; intros j H; inversion H; subst; eapply OK; [reflexivity|exact Hf|exact I].
  1,2,3: intros p a kids x _ i H; injection H as <-; intros j H; inversion H; subst; apply PL; [reflexivity|exact I].
  1,2: intros p a kids i H; injection H as <-; intros j H; inversion H; subst; apply PL; [reflexivity|exact I].
  1,2: intros p a kids iss _ _ IH i H; apply S1 in H as (st & -> & Hf); [|apply fine_none]; intros j H; inversion H; subst; [eapply OK; [reflexivity|exact Hf|exact I]|eapply L; eassumption].
  - intros p a kids iss _ IH i H. destruct (attr_value between0_10 _ _ _) as [m|]; [|discriminate]. apply S1 in H as (st & -> & Hf); [|apply fine_none].
    intros j H. inversion H as [?|?|?|? ? ? r ? Hr Hrt|?|?|?|?|?]; subst; [eapply OK; [reflexivity|exact Hf|exact I]|].
    unfold rows_of in Hr. apply in_flat_map in Hr as (i & Hi & Hr). destruct i; try contradiction. destruct Hr as [->|[]]. eapply L; [exact IH|exact Hi|exact Hrt].
  - intros p a kids iss _ IH i H. apply S1 in H as (st & -> & Hf); [|apply fine_none].
    intros j H. inversion H as [?|?|?|?|? ? c ? Hc Hct|?|?|?|?]; subst; [eapply OK; [reflexivity|exact Hf|exact I]|].
    unfold cells_of in Hc. apply in_flat_map in Hc as (i & Hi & Hc). destruct i; try contradiction. destruct Hc as [->|[]]. eapply L; [exact IH|exact Hi|exact Hct].
  - intros p a kids iss _ IH i H. destruct (attr_value parse_int _ _ _); [|discriminate]. destruct (attr_value parse_int _ _ _); [|discriminate].
    apply S1 in H as (st & -> & Hf); [|apply fine_none]. intros j H. inversion H; subst; [eapply OK; [reflexivity|exact Hf|exact I]|eapply L; eassumption].
  - intros p a kids iss _ IH Hv i H. apply S1 in H as (st & -> & Hf); [|apply fine_none]. intros j H. inversion H as [?|?|?|?|?|?|? ? ? q ? Hq Hqt|? ? ? q ? Hq Hqt|?]; subst.
    + eapply OK; [reflexivity|exact Hf|exact Hv].
    + unfold gridrows_of in Hq. apply in_flat_map in Hq as (i & Hi & Hq). destruct i; try contradiction. destruct Hq as [->|[]]. eapply L; [exact IH|exact Hi|exact Hqt].
    + unfold parts_of in Hq. apply in_flat_map in Hq as (i & Hi & Hq). destruct i; try contradiction. destruct Hq as [->|[]]. eapply L; [exact IH|exact Hi|exact Hqt].
  - discriminate.
  - intros p a kids _ i H. apply S1 in H as (st & -> & Hf); [|apply fine_none]. intros j H. inversion H; subst. eapply OK; [reflexivity|exact Hf|exact I].
  - intros p a kids iss _ IH i H. apply S1 in H as (st & -> & Hf); [|apply fine_none]. intros j H. inversion H as [?|?|?|?|?|?|?|?|? ? ? i ? Hi Hit]; subst; [eapply OK; [reflexivity|exact Hf|exact I]|].
    apply filter_In in Hi as [Hi _]. eapply L; eassumption.
  - constructor.
  - auto.
  - intros t ts l _ IH. apply Forall_app. auto.
  - intros t i ts l _ IH1 _ IH2. constructor; auto.
  - constructor.
  - auto.
  - intros t ts l _ IH. apply Forall_app. auto.
  - intros t i ts l _ IH1 _ IH2. constructor; auto.
  - auto.
  - intros p n a kids ts l1 l2 _ _ IH1 _ IH2. apply Forall_app. auto.
Qed.

Lemma doc_sound : forall toks doc cs, load toks = LOk F doc cs -> forall j, inside_doc doc j -> own_ok j.
Proof.
  intros toks doc cs H j (i & Hi & Hj). apply load_iff in H as (kids & _ & D & _). destruct D. destruct sound_all as (_ & B & _).
  apply B in is_header, is_footer, is_body. unfold instructions in Hi. rewrite !in_app_iff in Hi. rewrite Forall_forall in is_header, is_footer, is_body.
  destruct Hi as [Hi|[Hi|Hi]]; [eapply is_header|eapply is_footer|eapply is_body]; eassumption.
Qed.
Lemma mutate_all_fine : forall ms, Forall (fun m : mutator F => forall s, exists s', mutate m s = Some s') ms -> forall s, exists s', mutate_all F ms s = Some s'.
Proof.
  induction 1 as [|m ms Hm _ IH]; intro s; [exists s; reflexivity|]. cbn [mutate_all]. destruct (Hm s) as [s1 ->]. apply IH.
Qed.
Lemma doc_styles : forall toks doc cs, load toks = LOk F doc cs -> forall j st, inside_doc doc j -> styles_of j = Some st ->
  forall s, (exists s', mutated_styles cs st s = Some s') /\ forall sel, exists s', mutated_styles_sel sel cs st s = Some s'.
Proof.
  intros toks doc cs H j st Hj Est s. destruct (doc_sound _ _ _ H j Hj) as [Hf _]. specialize (Hf st Est).
  apply load_iff in H as (_ & _ & _ & Hc).
  destruct (decode_classes_spec F parse_float convert_float sheet_order Hsheet (doc_style F doc)) as [(l & cs' & _ & _ & _ & E & Hm)|(_ & E)]; [|congruence].
  rewrite Hc in E. injection E as <-. unfold mutated_styles, mutated_styles_sel. split.
  - destruct (classes_cascade F parse_float convert_float l cs (st_classes st) Hm s) as (s1 & -> & _). apply mutate_all_fine. exact Hf.
  - intro sel. destruct (classes_sel_cascade F parse_float convert_float l cs sel (st_classes st) Hm s) as (s1 & -> & _). apply mutate_all_fine. exact Hf.
Qed.
Lemma doc_grids : forall toks doc cs, load toks = LOk F doc cs -> forall j, inside_doc doc j ->
  match j with IGrid _ rows parts => valid_grid rows parts | ITextBlock t => t <> [] | _ => True end.
Proof. intros toks doc cs H j Hj. exact (proj2 (doc_sound _ _ _ H j Hj)). Qed.
End Style.
