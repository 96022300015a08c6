(** DecodeInstruction, for all token streams. *)
From Coq Require Import ZArith Lia.
From Verif Require Import GoStr GoStrFacts Num Style Class Instr Xml Load LoadSpec LoadFacts.
Local Open Scope nat_scope.

Section Inv.
Context {F : Num}.
Variables parse_float convert_float : bytes -> option F.
Variable order : nat -> bool -> nat -> rawmap -> rawmap.
Local Notation instr := (instr F).
Local Notation decode_registered := (decode_registered F parse_float convert_float order).
Local Notation decode_instruction := (decode_instruction F parse_float convert_float order).
Local Notation unmarshal_instructions := (unmarshal_instructions F parse_float convert_float order).

Lemma with_ends : forall {A} (r : res A) (f : A -> option instr) P, ends r P -> ends (with_attrs F r f) P.
Proof. intros A [x d|d|] f P H; cbn in *; auto. destruct (f x); exact H. Qed.
Lemma with_returns : forall {A} (r : res A) (f : A -> option instr), returns r -> returns (with_attrs F r f).
Proof. intros A [x d|d|] f H; cbn in *; [destruct (f x); discriminate|discriminate|exfalso; apply H; reflexivity]. Qed.

Lemma styled_field_keeps : forall P : decoder -> decoder -> Prop, (forall d, P d d) -> (forall a b c : decoder, P a b -> P b c -> P a c) -> (forall d, P d (snd (next d))) ->
  forall pos n a acc f, styled_field F pos n a acc = Some f -> keeps P f.
Proof.
  intros P H1 H2 H3 pos n a [st t] f H. unfold styled_field in H.
  destruct (beqb n ($"Mutators")); [|destruct (beqb n ($"Classes")); [|discriminate H]]; injection H as <-; apply map_keeps; [apply skip_keeps|apply string_keeps]; auto.
Qed.
Lemma styled_leaf_keeps : forall P : decoder -> decoder -> Prop, (forall d, P d d) -> (forall a b c : decoder, P a b -> P b c -> P a c) -> (forall d, P d (snd (next d))) -> keeps P (styled_leaf F).
Proof. intros P H1 H2 H3 d. apply fields_keeps; auto. apply styled_field_keeps; auto. Qed.
Lemma plain_leaf_keeps : forall P : decoder -> decoder -> Prop, (forall d, P d d) -> (forall a b c : decoder, P a b -> P b c -> P a c) -> (forall d, P d (snd (next d))) -> keeps P plain_leaf.
Proof. intros P H1 H2 H3 d. apply fields_keeps; auto. discriminate. Qed.
Lemma styled_leaf_closes : closes (styled_leaf F).
Proof.
  apply fields_closes'. intros pos n a [st t] f H. unfold styled_field in H.
  destruct (beqb n ($"Mutators")); [|destruct (beqb n ($"Classes")); [|discriminate H]]; injection H as <-; apply map_closes; [apply skip_closes|apply string_closes].
Qed.
Lemma plain_leaf_closes : closes plain_leaf.
Proof. apply fields_closes'. discriminate. Qed.
Lemma map_returns : forall {A B} (g : A -> B) r, returns r -> returns (map_res g r).
Proof. intros A B g [] H; [discriminate|discriminate|exfalso; apply H; reflexivity]. Qed.
Lemma styled_leaf_returns : forall d, returns (styled_leaf F d).
Proof.
  intro d. apply fields_returns with (N := List.length (d_toks d)); unfold enough; try lia.
  - intros pos n a [st t] f d' H _. unfold styled_field in H.
    destruct (beqb n ($"Mutators")); [|destruct (beqb n ($"Classes")); [|discriminate H]]; injection H as <-; apply map_returns; [apply skip_returns|apply string_returns].
  - apply styled_field_keeps; eauto with keeps.
Qed.
Lemma plain_leaf_returns : forall d, returns (plain_leaf d).
Proof. intro d. apply fields_returns with (N := List.length (d_toks d)); try discriminate; unfold enough; lia. Qed.

(** ** The loops of the methods *)
Section Methods.
Variable decode : nat -> bytes -> attrs -> decoder -> res instr.

Section Keeps.
Variable P : decoder -> decoder -> Prop.
Hypothesis Prefl : forall d, P d d.
Hypothesis Ptrans : forall a b c, P a b -> P b c -> P a c.
Hypothesis Pnext : forall d, P d (snd (next d)).
Hypothesis Hdec : forall pos n a d d', next d = (Some (TStart pos n a), d') -> ends (decode pos n a d') (P d).
Ltac loop := intros; intro d; apply token_keeps; auto; intros pos n a acc d1 d2 N; specialize (Hdec pos n a d1 d2 N);
  destruct (decode pos n a d2) as [i d3|d3|]; try exact Hdec; destruct i; exact Hdec.
Lemma instructions_keeps : forall name iss, keeps P (instructions_loop F decode name iss). Proof. loop. Qed.
Lemma table_keeps : forall name, keeps P (table_loop F decode name). Proof. loop. Qed.
Lemma row_keeps : forall name, keeps P (row_loop F decode name). Proof. loop. Qed.
Lemma cell_keeps : forall name, keeps P (cell_loop F decode name). Proof. loop. Qed.
Lemma grid_keeps : forall name, keeps P (grid_loop F decode name). Proof. loop. Qed.
Lemma part_keeps : forall name, keeps P (part_loop F decode name). Proof. loop. Qed.
Lemma gridrow_keeps : forall name, keeps P (gridrow_loop name).
Proof.
  intros name d. apply token_keeps; auto. intros pos n a acc d1 d2 N. cbn. specialize (Pnext d1). rewrite N in Pnext. exact Pnext.
Qed.
Lemma unmarshal_instructions_keeps : forall pos name a, keeps P (unmarshal_instructions decode pos name a).
Proof. intros pos name a d. unfold Load.unmarshal_instructions. destruct decode_styled; [apply instructions_keeps|cbn; auto]. Qed.
Lemma unmarshal_grid_keeps : forall name, keeps P (unmarshal_grid F decode name).
Proof.
  intros name d. unfold unmarshal_grid. pose proof (grid_keeps name d) as H. destruct (grid_loop F decode name d) as [[r p] d'|d'|]; auto.
  destruct grid_valid; exact H.
Qed.
End Keeps.

Section Returns.
Variable N : nat.
Hypothesis Hret : forall pos n a d, List.length (d_toks d) < N -> returns (decode pos n a d).
Hypothesis Hshort : forall pos n a, keeps shorter (decode pos n a).
Ltac ret := intros name d H; apply token_returns with (N := N); [| |unfold enough; lia|exact H];
  [intros pos n a acc d1 L; specialize (Hret pos n a d1 L); destruct (decode pos n a d1) as [i d3|d3|]; try discriminate; try (destruct i; discriminate); exfalso; apply Hret; reflexivity
  |intros pos n a acc d1; specialize (Hshort pos n a d1); destruct (decode pos n a d1) as [i d3|d3|]; try exact Hshort; destruct i; exact Hshort].
Lemma instructions_returns : forall iss name d, List.length (d_toks d) <= N -> returns (instructions_loop F decode name iss d). Proof. intro iss. ret. Qed.
Lemma table_returns : forall name d, List.length (d_toks d) <= N -> returns (table_loop F decode name d). Proof. ret. Qed.
Lemma row_returns : forall name d, List.length (d_toks d) <= N -> returns (row_loop F decode name d). Proof. ret. Qed.
Lemma cell_returns : forall name d, List.length (d_toks d) <= N -> returns (cell_loop F decode name d). Proof. ret. Qed.
Lemma grid_returns : forall name d, List.length (d_toks d) <= N -> returns (grid_loop F decode name d). Proof. ret. Qed.
Lemma part_returns : forall name d, List.length (d_toks d) <= N -> returns (part_loop F decode name d). Proof. ret. Qed.
Lemma gridrow_returns : forall name d, returns (gridrow_loop name d).
Proof.
  intros name d. apply token_returns with (N := List.length (d_toks d)); try discriminate; try (unfold enough; lia).
  intros. intro d1. cbn. apply shorter_refl.
Qed.
End Returns.
End Methods.

Ltac branches name := repeat match goal with |- context [if beqb name ?k then _ else _] => let B := fresh "B" in destruct (beqb name k) eqn:B end.
Ltac attr := match goal with |- context [match float_attr F parse_float ?k ?a ?x with _ => _ end] => destruct (float_attr F parse_float k a x) end.

Lemma decode_shorter : forall depth pos name a, keeps shorter (decode_instruction depth pos name a).
Proof.
  induction depth as [|k IH]; intros pos name a d; cbn [Load.decode_instruction]; [exact I|].
  assert (Hd : forall pos n a d d', next d = (Some (TStart pos n a), d') -> ends (decode_instruction k pos n a d') (shorter d)).
  { intros p n b d1 d2 N. pose proof (next_some _ _ _ N). specialize (IH p n b d2). destruct (decode_instruction k p n b d2); unfold ends, shorter in *; cbn in *; lia. }
  unfold Load.decode_registered. branches name; try (unfold ends, shorter; cbn; lia);
    try (attr; [|unfold ends, shorter; cbn; lia]); apply with_ends;
    try (apply styled_leaf_keeps; eauto with keeps); try (apply plain_leaf_keeps; eauto with keeps);
    apply iface_shorter.
  all: first [apply unmarshal_instructions_keeps|apply table_keeps|apply row_keeps|apply cell_keeps|apply unmarshal_grid_keeps|apply gridrow_keeps|apply part_keeps]; eauto with keeps.
Qed.
Lemma decode_returns : forall depth pos name a d, List.length (d_toks d) < depth -> returns (decode_instruction depth pos name a d).
Proof.
  induction depth as [|k IH]; intros pos name a d H; [lia|]. cbn [Load.decode_instruction].
  assert (Hs := fun pos n a => decode_shorter k pos n a).
  unfold Load.decode_registered. branches name; try discriminate;
    try (attr; [|discriminate]); apply with_returns; auto using styled_leaf_returns, plain_leaf_returns;
    apply iface_returns; intro s; unfold Load.unmarshal_instructions, unmarshal_grid.
  all: try (destruct decode_styled; [|discriminate]; eapply instructions_returns with (N := k); eauto; cbn; lia).
  - apply table_returns with (N := k); auto; cbn; lia.
  - apply row_returns with (N := k); auto; cbn; lia.
  - apply cell_returns with (N := k); auto; cbn; lia.
  - pose proof (grid_returns (decode_instruction k) k IH Hs name (mkDec (d_toks d) s)) as G. cbn [d_toks] in G. specialize (G ltac:(lia)).
    destruct (grid_loop F _ name _) as [[r p] d'|d'|]; [destruct grid_valid; discriminate|discriminate|exact G].
  - apply gridrow_returns.
  - apply part_returns with (N := k); auto; cbn; lia.
Qed.
Lemma decode_closes : forall depth pos name a, closes (decode_instruction depth pos name a).
Proof.
  induction depth as [|k IH]; intros pos name a d m z Hz; cbn [Load.decode_instruction]; [exact I|].
  assert (Hd : forall z pos n a d d', next d = (Some (TStart pos n a), d') -> ends (decode_instruction k pos n a d') (blocked z d)).
  { intros z0 p n b d1 d2 N. destruct (next_start _ _ _ _ _ N) as (_ & Hs & _). specialize (IH p n b d2 n (d_stk d1) Hs).
    destruct (decode_instruction k p n b d2); unfold ends, blocked in *; cbn in *; auto; intro; eapply above_trans; eauto. }
  assert (Hu : above z (d_stk d)) by (rewrite Hz; apply above_cons, above_refl).
  unfold Load.decode_registered. branches name; try exact Hu; try (attr; [|exact Hu]); apply with_ends.
  all: try (eapply styled_leaf_closes; exact Hz). all: try (eapply plain_leaf_closes; exact Hz).
  all: eapply iface_closes; [|exact Hz]; intro z0.
  all: first [apply unmarshal_instructions_keeps|apply table_keeps|apply row_keeps|apply cell_keeps|apply unmarshal_grid_keeps|apply gridrow_keeps|apply part_keeps]; eauto with keeps.
Qed.
Lemma adj_top : forall b n z, top_ok z -> adj b (Some n :: z) = adj b z.
Proof. intros b n [|[m|] z] H; cbn in *; auto. contradiction. Qed.
Lemma decode_adj : forall b, ~ In b known -> forall depth pos name a d z, d_stk d = Some name :: z -> top_ok z ->
  ends (decode_instruction depth pos name a d) (fun d' => adj b (d_stk d') <= adj b z).
Proof.
  intros b Hb. induction depth as [|k IH]; intros pos name a d z Hz Ht; cbn [Load.decode_instruction]; [exact I|].
  assert (Hd : forall pos n a d d', next d = (Some (TStart pos n a), d') -> ends (decode_instruction k pos n a d') (adjacent b d)).
  { intros p n c d1 d2 N. destruct (next_start _ _ _ _ _ N) as (_ & Hs & Hn). exact (IH p n c d2 (d_stk d1) Hs Hn). }
  assert (Hu : adj b (d_stk d) <= adj b z) by (rewrite Hz, adj_top; auto).
  assert (Hl : forall A (f : decoder -> res A), keeps (adjacent b) f -> ends (f d) (fun d' => adj b (d_stk d') <= adj b z)).
  { intros A f Hk. specialize (Hk d). unfold ends, adjacent in *. destruct (dec_of (f d)); [lia|auto]. }
  unfold Load.decode_registered. branches name; try exact Hu; try (attr; [|exact Hu]); apply with_ends.
  all: try (apply Hl; apply styled_leaf_keeps; eauto with keeps). all: try (apply Hl; apply plain_leaf_keeps; eauto with keeps).
  all: eapply iface_adj; [|exact Hz|].
  all: try (match goal with B : beqb _ ?k = true |- _ => apply beqb_eq in B; subst name end; intros <-; apply Hb; unfold known; cbn; tauto).
  all: first [apply unmarshal_instructions_keeps|apply table_keeps|apply row_keeps|apply cell_keeps|apply unmarshal_grid_keeps|apply gridrow_keeps|apply part_keeps]; eauto with keeps.
Qed.
End Inv.
