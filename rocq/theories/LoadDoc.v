(** Loading documents. *)
From Coq Require Import ZArith Lia.
From Verif Require Import GoStr GoStrFacts Num Style Class Instr Xml Load LoadSpec LoadDocSpec LoadFacts LoadInv LoadSim LoadTree LoadReads.
Local Open Scope nat_scope.

(** ** The last step of a loop *)
Section Last.
Variable P : decoder -> decoder -> Prop.
Hypothesis Prefl : forall d, P d d.
Hypothesis Ptrans : forall a b c, P a b -> P b c -> P a c.
Hypothesis Pnext : forall d, P d (snd (next d)).
Lemma token_got : forall {A} name (on_start : nat -> bytes -> attrs -> A -> decoder -> res A) on_char,
  (forall pos n a acc d d', next d = (Some (TStart pos n a), d') -> ends (on_start pos n a acc d') (P d)) ->
  forall fuel acc d x d', token_loop name on_start on_char fuel acc d = Got x d' ->
  exists d1, P d d1 /\ next d1 = (Some (TEnd name), d').
Proof.
  intros A name os oc Hs. induction fuel as [|f IH]; intros acc d x d' H; cbn [token_loop] in H; [discriminate|].
  pose proof (Pnext d) as E. destruct (next d) as [[[pos n a|n|t|]|] d2] eqn:N; cbn [snd] in E; try discriminate.
  - specialize (Hs pos n a acc d d2 N). destruct (os pos n a acc d2) as [y d3|d3|]; try discriminate. cbn in Hs.
    apply IH in H as (d1 & H1 & H2). eauto.
  - destruct (beqb n name) eqn:B.
    + apply beqb_eq in B. subst n. injection H as -> ->. eauto.
    + apply IH in H as (d1 & H1 & H2). eauto.
  - apply IH in H as (d1 & H1 & H2). eauto.
  - apply IH in H as (d1 & H1 & H2). eauto.
Qed.
End Last.
Lemma next_end : forall d n d', next d = (Some (TEnd n), d') -> d_stk d = Some n :: d_stk d' /\ d_toks d = TEnd n :: d_toks d'.
Proof.
  intros [t s] n d' H. unfold next in H. cbn [d_toks d_stk] in *.
  destruct s as [|[m|] s]; [| |discriminate]; destruct t as [|[] t]; try discriminate.
  destruct (beqb m name) eqn:B; [|discriminate]. apply beqb_eq in B. injection H as <- <-. subst. split; reflexivity.
Qed.

Lemma next_char : forall d t d', next d = (Some (TChar t), d') -> d_stk d' = d_stk d /\ d_toks d = TChar t :: d_toks d'.
Proof.
  intros [u s] t d' H. unfold next in H. cbn [d_toks d_stk] in *.
  destruct s as [|[m|] s]; [| |discriminate]; destruct u as [|[] u]; try discriminate; try (injection H as <- <-; split; reflexivity).
  destruct (beqb m name); discriminate.
Qed.
Lemma next_other : forall d d', next d = (Some TOther, d') -> d_stk d' = d_stk d /\ d_toks d = TOther :: d_toks d'.
Proof.
  intros [u s] d' H. unfold next in H. cbn [d_toks d_stk] in *.
  destruct s as [|[m|] s]; [| |discriminate]; destruct u as [|[] u]; try discriminate; try (injection H as <-; split; reflexivity).
  destruct (beqb m name); discriminate.
Qed.

(** ** Success leaves the stack as it should be *)
Definition exact {A} (f : decoder -> res A) : Prop := forall d n z x d', d_stk d = Some n :: z -> f d = Got x d' -> d_stk d' = z.
Lemma skip_exact : exact skip.
Proof.
  intros d n z x d' Hd R. unfold skip in R.
  assert (G : forall fuel depth d w z u d', skip_go fuel depth d = Got u d' -> d_stk d = w ++ z -> List.length w = S depth -> d_stk d' = z).
  { clear. induction fuel as [|f IH]; intros depth d w z u d' H Hd Hw; cbn [skip_go] in H; [discriminate|].
    destruct (next d) as [[[pos n a|n|t|]|] d2] eqn:N; try discriminate.
    - destruct (next_start _ _ _ _ _ N) as (_ & Hs & _). eapply (IH _ _ (Some n :: w)); [exact H|rewrite Hs, Hd; reflexivity|cbn; lia].
    - apply next_end in N as [N _]. rewrite Hd in N. destruct w as [|y w]; [discriminate|]. injection N as -> N. cbn in Hw.
      destruct depth as [|k].
      + injection H as _ <-. destruct w; [exact (eq_sym N)|discriminate].
      + eapply (IH k d2 w); [exact H|exact (eq_sym N)|lia].
    - apply next_char in N as [E _]. eapply IH; [exact H|rewrite E; exact Hd|exact Hw].
    - apply next_other in N as [E _]. eapply IH; [exact H|rewrite E; exact Hd|exact Hw]. }
  eapply (G _ 0 d [Some n]); [exact R|exact Hd|reflexivity].
Qed.
Lemma fields_exact : forall {A} (field : nat -> bytes -> attrs -> A -> option (decoder -> res A)) chars,
  (forall pos n a acc f, field pos n a acc = Some f -> exact f) -> forall fuel acc, exact (fields_loop field chars fuel acc).
Proof.
  intros A field chars Hf. induction fuel as [|f IH]; intros acc d n z x d' Hd H; cbn [fields_loop] in H; [discriminate|].
  destruct (next d) as [[[pos m a|m|t|]|] d2] eqn:N; try discriminate.
  - destruct (next_start _ _ _ _ _ N) as (_ & Hs & _). destruct (field pos m a acc) as [g|] eqn:G.
    + destruct (g d2) as [y d3|d3|] eqn:R; try discriminate. pose proof (Hf _ _ _ _ _ G _ _ _ _ _ Hs R) as E. rewrite Hd in E. eapply IH; [exact E|exact H].
    + destruct (skip d2) as [y d3|d3|] eqn:R; try discriminate. pose proof (skip_exact _ _ _ _ _ Hs R) as E. rewrite Hd in E. eapply IH; [exact E|exact H].
  - apply next_end in N as [N _]. rewrite Hd in N. injection N as _ N. injection H as _ <-. exact (eq_sym N).
  - apply next_char in N as [E _]. rewrite Hd in E. eapply IH; [exact E|exact H].
  - apply next_other in N as [E _]. rewrite Hd in E. eapply IH; [exact E|exact H].
Qed.
Lemma map_exact : forall {A B} (g : A -> B) f, exact f -> exact (fun d => map_res g (f d)).
Proof. intros A B g f H d n z x d' Hd R. specialize (H d n z). destruct (f d) as [y e|e|]; try discriminate. injection R as _ <-. eapply H; [exact Hd|reflexivity]. Qed.
Lemma string_exact : exact string_value.
Proof. intros d. apply fields_exact. discriminate. Qed.
Lemma plain_exact : exact plain_leaf.
Proof. intros d. apply fields_exact. discriminate. Qed.
(** Or there is one more mark. *)
Definition nearly {A} (f : decoder -> res A) : Prop :=
  forall d n z x d', d_stk d = Some n :: z -> f d = Got x d' -> d_stk d' = z \/ above (None :: z) (d_stk d').
Lemma exact_nearly : forall {A} (f : decoder -> res A), exact f -> nearly f.
Proof. intros A f H d n z x d' Hd R. left. eauto. Qed.
Lemma iface_nearly : forall {A} (f : decoder -> res A), (forall z, keeps (blocked z) f) -> nearly (unmarshal_interface f).
Proof.
  intros A f H d n z x d' Hd R. unfold unmarshal_interface in R. rewrite Hd in R. cbn [push_eof] in R.
  specialize (H z (mkDec (d_toks d) (Some n :: None :: z))). unfold blocked in H.
  destruct (f _) as [y e|e|]; try discriminate. cbn in H. specialize (H ltac:(exists [Some n]; reflexivity)).
  destruct (d_stk e) as [|[m|] w] eqn:W; cbn in R; try discriminate. injection R as <- <-. cbn.
  destruct H as [[|u v] H]; [injection H as ->; auto|]. injection H as <- ->. right. exists v. reflexivity.
Qed.

Section Doc.
Context {F : Num}.
Variables parse_float convert_float : bytes -> option F.
Variable order : nat -> bool -> nat -> rawmap -> rawmap.
Variable sheet_order : nat -> rawmap -> rawmap.
Local Notation instr := (instr F).
Local Notation Document := (Document F).
Local Notation decode_instruction := (decode_instruction F parse_float convert_float order).
Local Notation styled := (decode_styled F parse_float convert_float order).
Local Notation stricts := (stricts parse_float convert_float order).
Local Notation strict := (strict parse_float styled).
Local Notation section_field := (section_field F parse_float convert_float order).
Local Notation document_field := (document_field F parse_float convert_float order).

Lemma styled_exact : exact (styled_leaf F).
Proof.
  intro d. apply fields_exact. intros pos n a [st t] f. unfold styled_field.
  destruct (beqb n ($"Mutators")); [intro E; injection E as <-; apply map_exact, skip_exact|].
  destruct (beqb n ($"Classes")); [intro E; injection E as <-; apply map_exact, string_exact|discriminate].
Qed.
Lemma with_got : forall {A} (r : res A) (f : A -> option instr) i d', with_attrs F r f = Got i d' -> exists x, r = Got x d'.
Proof. intros A [x d|d|] f i d' H; cbn in H; try discriminate. destruct (f x); [|discriminate]. injection H as _ <-. eauto. Qed.
Lemma decode_nearly : forall depth pos name a, nearly (decode_instruction depth pos name a).
Proof.
  destruct depth as [|k]; intros pos name a d n z x d' Hd R; cbn [Load.decode_instruction] in R; [discriminate|].
  assert (Hd' : forall z pos n a d d', next d = (Some (TStart pos n a), d') -> ends (decode_instruction k pos n a d') (blocked z d)).
  { intros z0 p m b d1 d2 N. eapply decode_blocked; [|exact N]. apply decode_closes. }
  revert R. unfold decode_registered.
  repeat match goal with |- (if beqb name ?s then _ else _) = _ -> _ => destruct (beqb name s) end.
  all: try discriminate. all: try (destruct (float_attr F parse_float _ a zero); [|discriminate]).
  all: intro R; apply with_got in R as [y R]; revert Hd R.
  all: try (apply exact_nearly; exact plain_exact). all: try (apply exact_nearly; exact styled_exact).
  all: apply iface_nearly; intro z0.
  all: first [apply unmarshal_instructions_keeps|apply table_keeps|apply row_keeps|apply cell_keeps|apply unmarshal_grid_keeps|apply gridrow_keeps|apply part_keeps]; eauto with keeps.
Qed.

(** ** Sections *)
Lemma instructions_exact : forall depth n, ~ In n known -> forall fuel iss d z x d' y,
  d_stk d = Some n :: None :: z ->
  token_loop n (strict_start (fun acc l => acc ++ l) (decode_instruction depth)) (add_text (fun acc l => acc ++ l)) fuel iss d = Got x d' ->
  d_stk d' = None :: y -> y = z.
Proof.
  intros depth n Hn. induction fuel as [|f IH]; intros iss d z x d' y Hd R Hy; cbn [token_loop] in R; [discriminate|].
  destruct (next d) as [[[pos m a|m|t|]|] d2] eqn:N; try discriminate.
  - destruct (next_start _ _ _ _ _ N) as (_ & Hs & _). unfold strict_start at 1 in R.
    destruct (decode_instruction depth pos m a d2) as [i d3|d3|] eqn:D; try discriminate.
    pose proof (decode_adj parse_float convert_float order n Hn depth pos m a d2 (d_stk d) Hs ltac:(rewrite Hd; exact I)) as Hadj. rewrite D in Hadj. cbn [ends dec_of] in Hadj.
    destruct (decode_nearly _ _ _ _ _ _ _ _ _ Hs D) as [E|E]; rewrite Hd in E.
    + eapply IH; [exact E|exact R|exact Hy].
    + exfalso.
      assert (Hst : forall (P : decoder -> decoder -> Prop), (forall pos n a d d', next d = (Some (TStart pos n a), d') -> ends (decode_instruction depth pos n a d') (P d)) ->
        forall pos n a acc d d', next d = (Some (TStart pos n a), d') -> ends (strict_start (fun acc l => acc ++ l) (decode_instruction depth) pos n a acc d') (P d)).
      { intros P HP p k b acc e e' M. specialize (HP p k b e e' M). unfold strict_start. destruct (decode_instruction depth p k b e'); exact HP. }
      destruct (token_got (fun a b => adjacent n a b /\ blocked (Some n :: None :: z) a b) ltac:(intro; split; eauto with keeps)
        ltac:(intros e f0 g [H1 H2] [H3 H4]; split; [eapply adjacent_trans|eapply blocked_trans]; eassumption)
        ltac:(intro; split; [apply next_adjacent|apply next_blocked]) n
        (strict_start (fun acc l => acc ++ l) (decode_instruction depth)) (add_text (fun acc l => acc ++ l))
        ltac:(apply Hst; intros p k b e e' M; destruct (next_start _ _ _ _ _ M) as (_ & Hs' & Ht');
          pose proof (decode_adj parse_float convert_float order n Hn depth p k b e' (d_stk e) Hs' Ht') as A1;
          pose proof (decode_blocked (decode_instruction depth) (decode_closes parse_float convert_float order depth) (Some n :: None :: z) p k b e e' M) as A2;
          unfold ends, adjacent in *; destruct (dec_of (decode_instruction depth p k b e')); [split; assumption|exact I])
        f _ d3 x d' R) as (d1 & (H1 & H2) & H3).
      specialize (H2 E). apply next_end in H3 as [H3 _]. rewrite H3, Hy in H2. unfold adjacent in H1. rewrite H3, Hy in H1.
      rewrite Hd in Hadj.
      assert (C : S (adj n (Some n :: None :: z)) <= adj n (Some n :: None :: y)).
      { destruct H2 as [[|u w] H2]; [discriminate|]. injection H2 as _ H2.
        assert (G : forall w s t, w ++ s = t -> adj n s <= adj n t).
        { clear. intros w s t <-. induction w as [|u w IHw]; [reflexivity|]. cbn [app]. etransitivity; [exact IHw|apply adj_tl]. }
        assert (G' := G w (None :: Some n :: None :: z) (None :: y) (eq_sym H2)).
        change (adj n (Some n :: None :: y)) with ((if beqb n n then 1 else 0) + adj n (None :: y)). rewrite beqb_refl.
        change (adj n (None :: Some n :: None :: z)) with (adj n (Some n :: None :: z)) in G'. lia. }
      lia.
  - apply next_end in N as [N _]. rewrite Hd in N. injection N as -> N. rewrite beqb_refl in R. injection R as _ <-. congruence.
  - apply next_char in N as [E _]. rewrite Hd in E. eapply IH; [exact E|exact R|exact Hy].
  - apply next_other in N as [E _]. rewrite Hd in E. eapply IH; [exact E|exact R|exact Hy].
Qed.
Lemma section_exact : forall depth pos n a iss, ~ In n known -> forall d z x d', d_stk d = Some n :: z ->
  section_field depth pos n a iss d = Got x d' -> d_stk d' = z.
Proof.
  intros depth pos n a iss Hn d z x d' Hd R. unfold Load.section_field, unmarshal_interface in R. rewrite Hd in R. cbn [push_eof] in R.
  destruct (styled pos false a (no_styles F)); [|discriminate]. rewrite instructions_is in R. unfold tloop in R.
  destruct (token_loop n _ _ _ iss _) as [y e|e|] eqn:L; try discriminate.
  destruct (d_stk e) as [|[m|] w] eqn:W; cbn in R; try discriminate. injection R as _ <-. cbn.
  eapply instructions_exact; [exact Hn| |exact L|exact W]. reflexivity.
Qed.
Lemma section_run : forall depth pos n a iss kids r s, ~ In n known -> sizes kids <= depth ->
  let d := mkDec (flats kids ++ TEnd n :: r) (Some n :: s) in
  section_field depth pos n a iss d <> Fuel ->
  match styled pos false a (no_styles F), stricts kids with
  | Some _, Some l => section_field depth pos n a iss d = Got (iss ++ l) (mkDec r s)
  | _, _ => exists d', section_field depth pos n a iss d = Fail d'
  end.
Proof.
  intros depth pos n a iss kids r s Hn Hk d. subst d.
  assert (Hs : Forall (sim_at parse_float convert_float order (decode_instruction depth)) kids).
  { apply Forall_forall. intros t Hin. apply sim. enough (size t <= sizes kids) by lia. clear - Hin.
    induction kids as [|t' ks IHk]; [contradiction|]. rewrite sizes_cons. destruct Hin as [->|Hin]; [lia|]. specialize (IHk Hin). lia. }
  pose proof (strict_run parse_float convert_float order (fun acc l => acc ++ l) (@app_nil_r _) (fun acc l m => @app_assoc _ acc l m) (decode_instruction depth)
    (decode_shorter parse_float convert_float order depth) (decode_closes parse_float convert_float order depth) n kids Hs iss r (None :: s)) as R.
  cbv zeta in R. intro NF. pose proof (section_exact depth pos n a iss Hn (mkDec (flats kids ++ TEnd n :: r) (Some n :: s)) s) as X.
  unfold Load.section_field in *. destruct (styled pos false a (no_styles F)).
  2:{ eexists. unfold unmarshal_interface. reflexivity. }
  destruct (stricts kids) as [l|].
  - apply iface_got. rewrite instructions_is. exact R.
  - match type of R with ends (?g _ _) _ => pose proof (iface_dirty (g iss) (flats kids ++ TEnd n :: r) n s R) as D end.
    match type of D with ends ?u _ => assert (E : unmarshal_interface (fun d' => instructions_loop F (decode_instruction depth) n iss d') (mkDec (flats kids ++ TEnd n :: r) (Some n :: s)) = u) end.
    { unfold unmarshal_interface. rewrite instructions_is. reflexivity. }
    rewrite E in *.
    destruct (unmarshal_interface _ _) as [x d'|d'|] eqn:U; [|eauto|congruence].
    exfalso. specialize (X x d' eq_refl eq_refl). cbn in D. rewrite X in D. destruct D as [w D]. apply (f_equal (@List.length _)) in D. rewrite app_length in D. cbn in D. lia.
Qed.
End Doc.
