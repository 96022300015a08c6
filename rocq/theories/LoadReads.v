(** The outcomes of [LoadTree] are those of the specification. *)
From Coq Require Import ZArith Lia.
From Verif Require Import GoStr GoStrFacts Num Style Class Instr Xml Load LoadSpec LoadFacts LoadSim LoadTree.
Local Open Scope nat_scope.

Section Bridge.
Context {F : Num}.
Variables parse_float convert_float : bytes -> option F.
Variable order : nat -> bool -> nat -> rawmap -> rawmap.
Local Notation instr := (instr F).
Local Notation styled := (decode_styled F parse_float convert_float order).
Local Notation outcome_at := (outcome_at parse_float convert_float order).
Local Notation stricts := (stricts parse_float convert_float order).
Local Notation looses := (looses parse_float convert_float order).
Local Notation pieces := (pieces parse_float convert_float order).
Local Notation reads := (reads parse_float styled).
Local Notation strict := (strict parse_float styled).
Local Notation loose := (loose parse_float styled).
Local Notation opens := (opens parse_float).

(** ** Attributes *)
Lemma values_cons : forall k k' v a, values k ((k', v) :: a) = if beqb k' k then v :: values k a else values k a.
Proof. intros. unfold values. cbn. destruct (beqb k' k); reflexivity. Qed.
Lemma float_attr_spec : forall k a x, float_attr F parse_float k a x = attr_value (number parse_float) k a x.
Proof.
  intros k a. induction a as [|[k' v] a IH]; intro x; [reflexivity|]. cbn [float_attr]. unfold attr_value. rewrite values_cons.
  destruct (beqb k' k); cbn [parsed]; [|apply IH]. unfold number at 1. destruct (float_value zero parse_float v); [apply IH|reflexivity].
Qed.
Lemma repeat_header_spec : forall a n, repeat_header a n = attr_value between0_10 ($"repeatheader") a n.
Proof.
  induction a as [|[k' v] a IH]; intro n; [reflexivity|]. cbn [repeat_header]. unfold attr_value. rewrite values_cons.
  destruct (beqb k' ($"repeatheader")); cbn [parsed]; [|apply IH]. unfold between0_10 at 1. destruct (parse_int v) as [m|]; [|reflexivity].
  destruct (m <? 0)%Z eqn:E1, (10 <? m)%Z eqn:E2; cbn [orb]; destruct (0 <=? m)%Z eqn:E3, (m <=? 10)%Z eqn:E4; cbn [andb]; try reflexivity; try lia; apply IH.
Qed.
Lemma decode_spans_spec : forall a cs rs, decode_spans a cs rs =
  match attr_value parse_int ($"colspan") a cs, attr_value parse_int ($"rowspan") a rs with Some x, Some y => Some (x, y) | _, _ => None end.
Proof.
  induction a as [|[k' v] a IH]; intros cs rs; [reflexivity|]. cbn [decode_spans]. unfold attr_value. rewrite !values_cons.
  destruct (beqb k' ($"colspan")) eqn:B1; [apply beqb_eq in B1; subst k'; replace (beqb ($"colspan") ($"rowspan")) with false by reflexivity|destruct (beqb k' ($"rowspan"))].
  - cbn [parsed]. destruct (parse_int v); [apply IH|reflexivity].
  - cbn [parsed]. destruct (parse_int v); [apply IH|]. destruct (parsed _ _ _); reflexivity.
  - apply IH.
Qed.
Lemma decode_area_spec : forall a x, decode_area a x = last (values ($"area") a) x.
Proof.
  induction a as [|[k' v] a IH]; intro x; [reflexivity|]. cbn [decode_area]. rewrite values_cons, IH.
  destruct (beqb k' ($"area")); [|reflexivity]. cbn [last]. destruct (values ($"area") a) as [|y l]; [reflexivity|].
  cbn [last]. clear. revert y. induction l as [|z l IH]; intro y; [reflexivity|]. apply (IH z).
Qed.
Lemma areas_spec : forall l acc, areas_of acc l = match rev l with [] => acc | t :: _ => split_byte sp t end.
Proof.
  intro l. induction l as [|t l IH] using rev_ind; intro acc; [reflexivity|]. unfold areas_of. rewrite fold_left_app, rev_app_distr. reflexivity.
Qed.
Lemma grid_valid_spec : forall rows parts, grid_valid F rows parts = true <-> valid_grid rows parts.
Proof.
  intros rows parts. unfold grid_valid, valid_grid. destruct rows as [|r0 rows]; [split; [discriminate|tauto]|].
  rewrite andb_true_iff, !forallb_forall. split.
  - intros [H1 H2]. split; [discriminate|]. split.
    + intros r r' Hr Hr'. apply H1 in Hr, Hr'. apply Nat.eqb_eq in Hr, Hr'. congruence.
    + intros p st area iss Hp ->. apply H2 in Hp. apply existsb_exists in Hp as (r & Hr & E). apply existsb_exists in E as (x & Hx & B).
      apply beqb_eq in B. subst x. eauto.
  - intros (_ & H1 & H2). split.
    + intros r Hr. apply Nat.eqb_eq. apply H1; [exact Hr|left; reflexivity].
    + intros [st area iss] Hp. destruct (H2 _ _ _ _ Hp eq_refl) as (r & Hr & Hx). apply existsb_exists. exists r. split; [exact Hr|].
      apply existsb_exists. exists area. split; [exact Hx|apply beqb_refl].
Qed.
Lemma grid_invalid_spec : forall rows parts, grid_valid F rows parts = false <-> ~ valid_grid rows parts.
Proof. intros. rewrite <- grid_valid_spec. destruct (grid_valid F rows parts); split; congruence. Qed.

(** ** From the specification *)
Lemma stricts_nil : stricts [] = Some []. Proof. reflexivity. Qed.
Lemma looses_nil : looses [] = Some []. Proof. reflexivity. Qed.
Ltac lits := repeat match goal with |- context [beqb ($ ?x) ($ ?y)] => let b := eval vm_compute in (beqb ($ x) ($ y)) in change (beqb ($ x) ($ y)) with b end; cbv iota.
Lemma opens_outcome : forall pos n a kids, opens n a -> outcome_at pos n a kids = Opened.
Proof.
  intros pos n a kids [H|(k & Hk & Hv)]; unfold LoadTree.outcome_at, outcome_of.
  - assert (B : forall x, In x known -> beqb n x = false).
    { intros x Hx. destruct (beqb n x) eqn:E; [|reflexivity]. apply beqb_eq in E. subst x. contradiction. }
    rewrite !B by (unfold known; cbn; tauto). reflexivity.
  - rewrite <- float_attr_spec in Hv. cbn [In] in Hk. destruct Hk as [E|[E|[E|[]]]]; apply pair_equal_spec in E as [<- <-]; lits; rewrite Hv; reflexivity.
Qed.

Scheme reads_min := Minimality for LoadSpec.reads Sort Prop
  with strict_min := Minimality for LoadSpec.strict Sort Prop
  with loose_min := Minimality for LoadSpec.loose Sort Prop.
Combined Scheme reads_all from reads_min, strict_min, loose_min.

Definition read_as (t : node) (o : option instr) : Prop :=
  exists pos n a kids, t = Elem pos n a kids /\ outcome_at pos n a kids = taken o.
Lemma read_pieces : forall t i, read_as t (Some i) -> pieces t = (Some [i], Some [i]).
Proof. intros t i (pos & n & a & kids & -> & H). rewrite pieces_elem, H. reflexivity. Qed.
Lemma drop_pieces : forall t, read_as t None -> pieces t = (None, Some []).
Proof. intros t (pos & n & a & kids & -> & H). rewrite pieces_elem, H. reflexivity. Qed.

Ltac elem := eexists _, _, _, _; split; [reflexivity|]; unfold LoadTree.outcome_at, outcome_of; lits.
Lemma complete : (forall t o, reads t o -> read_as t o) /\ (forall ts l, strict ts l -> stricts ts = Some l) /\ (forall ts l, loose ts l -> looses ts = Some l).
Proof.
  apply (reads_all F parse_float styled).
  - intros. elem. reflexivity.
  - intros. elem. reflexivity.
  - intros. elem. reflexivity.
  - intros p a kids x H. elem. rewrite float_attr_spec, H. reflexivity.
  - intros p a kids x H. elem. rewrite float_attr_spec, H. reflexivity.
  - intros p a kids x H. elem. rewrite float_attr_spec, H. reflexivity.
  - intros. elem. reflexivity.
  - intros. elem. reflexivity.
  - intros p a kids iss H _ E. elem. change (no_styles F) with (@none F). destruct (styled p false a none); [|congruence]. rewrite E. reflexivity.
  - intros p a kids iss H _ E. elem. change (no_styles F) with (@none F). destruct (styled p false a none); [|congruence]. rewrite E. reflexivity.
  - intros p a kids iss _ E. elem. rewrite E, repeat_header_spec. destruct (attr_value between0_10 _ _ _); reflexivity.
  - intros p a kids iss _ E. elem. rewrite E. reflexivity.
  - intros p a kids iss _ E. elem. rewrite E, decode_spans_spec. destruct (attr_value parse_int _ _ _); [|reflexivity]. destruct (attr_value parse_int _ _ _); reflexivity.
  - intros p a kids iss _ E V. elem. rewrite E. apply grid_valid_spec in V. rewrite V. reflexivity.
  - intros p a kids iss _ E V. elem. rewrite E. apply grid_invalid_spec in V. rewrite V. reflexivity.
  - intros p a kids H. elem. rewrite H. change (fold_left (fun _ t => split_byte sp t) (flat_map deep_chars kids) []) with (areas_of [] (flat_map deep_chars kids)). rewrite areas_spec. reflexivity.
  - intros p a kids iss _ E. elem. rewrite E, decode_area_spec. reflexivity.
  - reflexivity.
  - intros ts l _ E. rewrite stricts_cons, E. reflexivity.
  - intros t ts l _ E. rewrite stricts_cons, E. reflexivity.
  - intros t i ts l _ R _ E. rewrite stricts_cons, E, (read_pieces _ _ R). reflexivity.
  - reflexivity.
  - intros ts l _ E. rewrite looses_cons, E. reflexivity.
  - intros t ts l _ E. rewrite looses_cons, E. reflexivity.
  - intros t i ts l _ R _ E. rewrite looses_cons, E, (read_pieces _ _ R). reflexivity.
  - intros t ts l _ R _ E. rewrite looses_cons, E, (drop_pieces _ R). reflexivity.
  - intros p n a kids ts l1 l2 O _ E1 _ E2. rewrite looses_cons, E2, pieces_elem, (opens_outcome _ _ _ _ O), E1. reflexivity.
Qed.

(** ** To the specification *)
Lemma opened_opens : forall pos n a kids, outcome_at pos n a kids = Opened -> opens n a.
Proof.
  intros pos n a kids H. unfold LoadSpec.opens.
  destruct (existsb (beqb n) known) eqn:K.
  - right. apply existsb_exists in K as (x & Hx & B). apply beqb_eq in B. subst x. revert H. unfold LoadTree.outcome_at, outcome_of.
    assert (T : forall o, @taken F o <> Opened) by (intros []; discriminate).
    unfold known in Hx. cbn [map In] in Hx.
    repeat match type of Hx with _ \/ _ => destruct Hx as [<-|Hx] end; [..|contradiction]; lits; intro H.
    all: try (exfalso; exact (T _ H)). all: try discriminate H.
    + exfalso. destruct (styled pos false a _); [|discriminate]. destruct (stricts kids); [exact (T _ H)|discriminate].
    + exfalso. destruct (styled pos false a _); [|discriminate]. destruct (stricts kids); [exact (T _ H)|discriminate].
    + exists ($"lines"). split; [left; reflexivity|]. rewrite float_attr_spec in H. destruct (attr_value _ _ _ _); [discriminate|reflexivity].
    + exists ($"x"). split; [right; left; reflexivity|]. rewrite float_attr_spec in H. destruct (attr_value _ _ _ _); [discriminate|reflexivity].
    + exists ($"y"). split; [right; right; left; reflexivity|]. rewrite float_attr_spec in H. destruct (attr_value _ _ _ _); [discriminate|reflexivity].
    + exfalso. destruct (stricts kids); [|discriminate]. destruct (repeat_header a 0); [exact (T _ H)|discriminate].
    + exfalso. destruct (stricts kids); [exact (T _ H)|discriminate].
    + exfalso. destruct (looses kids); [|discriminate]. destruct (decode_spans a 0 0) as [[]|]; [exact (T _ H)|discriminate].
    + exfalso. destruct (looses kids); [|discriminate]. destruct (grid_valid F _ _); [exact (T _ H)|discriminate].
    + exfalso. destruct (existsb _ kids); [discriminate|exact (T _ H)].
    + exfalso. destruct (looses kids); [exact (T _ H)|discriminate].
  - left. intro Hin. assert (E : existsb (beqb n) known = true) by (apply existsb_exists; exists n; split; [exact Hin|apply beqb_refl]). congruence.
Qed.
Lemma join_some : forall x y (l : list instr), join x y = Some l -> exists l1 l2, x = Some l1 /\ y = Some l2 /\ l = l1 ++ l2.
Proof. intros [x|] [y|] l H; try discriminate. injection H as <-. eauto. Qed.
Lemma outcome_dec : forall pos n a kids o, outcome_at pos n a kids = taken o ->
  (forall l, stricts kids = Some l -> strict kids l) -> (forall l, looses kids = Some l -> loose kids l) -> reads (Elem pos n a kids) o.
Proof.
  intros pos n a kids o H HS HL.
  destruct (existsb (beqb n) known) eqn:K.
  2:{ exfalso. assert (N : ~ In n known) by (intro Hin; assert (E : existsb (beqb n) known = true) by (apply existsb_exists; exists n; split; [exact Hin|apply beqb_refl]); congruence).
      rewrite (opens_outcome pos n a kids (or_introl N)) in H. destruct o; discriminate. }
  apply existsb_exists in K as (x & Hx & B). apply beqb_eq in B. subst x. revert H. unfold LoadTree.outcome_at, outcome_of.
  assert (T : forall o o', @taken F o' = taken o -> o = o') by (intros [] []; intro E; cbn in E; congruence).
  assert (Bk : forall (o : option instr), Broken = taken o -> False) by (intros []; discriminate).
  assert (Dr : forall (o : option instr), Dropped = taken o -> o = None) by (intros []; [discriminate|reflexivity]).
  unfold known in Hx. cbn [map In] in Hx.
  repeat match type of Hx with _ \/ _ => destruct Hx as [<-|Hx] end; [..|contradiction]; lits; intro H.
  - apply T in H. subst o. constructor.
  - destruct (styled pos false a _) eqn:E; [|destruct (Bk _ H)]. destruct (stricts kids) as [l|] eqn:E2; [|destruct (Bk _ H)].
    apply T in H. subst o. constructor; [unfold none; unfold no_styles in E; congruence|auto].
  - destruct (styled pos false a _) eqn:E; [|destruct (Bk _ H)]. destruct (stricts kids) as [l|] eqn:E2; [|destruct (Bk _ H)].
    apply T in H. subst o. constructor; [unfold none; unfold no_styles in E; congruence|auto].
  - rewrite float_attr_spec in H. destruct (attr_value _ _ _ _) eqn:E; destruct o; try discriminate. injection H as <-. constructor. exact E.
  - rewrite float_attr_spec in H. destruct (attr_value _ _ _ _) eqn:E; destruct o; try discriminate. injection H as <-. constructor. exact E.
  - rewrite float_attr_spec in H. destruct (attr_value _ _ _ _) eqn:E; destruct o; try discriminate. injection H as <-. constructor. exact E.
  - apply T in H. subst o. constructor.
  - destruct (stricts kids) as [l|] eqn:E2; [|destruct (Bk _ H)]. pose proof (R_table parse_float styled pos a kids l (HS _ eq_refl)) as R.
    rewrite <- repeat_header_spec in R. destruct (repeat_header a 0).
    + apply T in H. subst o. exact R.
    + apply Dr in H. subst o. exact R.
  - destruct (stricts kids) as [l|] eqn:E2; [|destruct (Bk _ H)]. apply T in H. subst o. constructor. auto.
  - destruct (looses kids) as [l|] eqn:E2; [|destruct (Bk _ H)]. pose proof (R_td parse_float styled pos a kids l (HL _ eq_refl)) as R.
    rewrite decode_spans_spec in H. destruct (attr_value parse_int _ _ _).
    + destruct (attr_value parse_int _ _ _); [apply T in H|apply Dr in H]; subst o; exact R.
    + apply Dr in H; subst o; exact R.
  - destruct (looses kids) as [l|] eqn:E2; [|destruct (Bk _ H)]. destruct (grid_valid F _ _) eqn:V.
    + apply T in H. subst o. constructor; [auto|]. apply grid_valid_spec. exact V.
    + apply Dr in H. subst o. eapply R_badgrid; [apply HL; reflexivity|]. apply grid_invalid_spec. exact V.
  - destruct (existsb _ kids) eqn:E; [destruct (Bk _ H)|]. apply T in H. subst o.
    change (fold_left (fun _ t => split_byte sp t) (flat_map deep_chars kids) []) with (areas_of [] (flat_map deep_chars kids)). rewrite areas_spec. constructor. exact E.
  - destruct (looses kids) as [l|] eqn:E2; [|destruct (Bk _ H)]. apply T in H. subst o. rewrite decode_area_spec. constructor. auto.
  - apply T in H. subst o. constructor.
  - destruct o; try discriminate. injection H as <-. constructor.
  - destruct o; try discriminate. injection H as <-. constructor.
Qed.
Lemma sound : forall m,
  (forall t o, size t <= m -> read_as t o -> reads t o) /\
  (forall ts l, sizes ts <= m -> stricts ts = Some l -> strict ts l) /\ (forall ts l, sizes ts <= m -> looses ts = Some l -> loose ts l).
Proof.
  induction m as [|m (IHr & IHs & IHl)].
  - split; [|split].
    + intros t o Ht. pose proof (size_pos t). lia.
    + intros [|t ts] l H E; [injection E as <-; constructor|]. rewrite sizes_cons in H. pose proof (size_pos t). lia.
    + intros [|t ts] l H E; [injection E as <-; constructor|]. rewrite sizes_cons in H. pose proof (size_pos t). lia.
  - assert (R : forall t o, size t <= S m -> read_as t o -> reads t o).
    { intros t o Ht (pos & n & a & kids & -> & H). rewrite size_elem in Ht. apply outcome_dec; [exact H| |]; intros l E; [apply IHs|apply IHl]; auto; lia. }
    split; [exact R|]. split.
    + intros [|t ts] l H E; [injection E as <-; constructor|]. rewrite sizes_cons in H. pose proof (size_pos t).
      rewrite stricts_cons in E. apply join_some in E as (l1 & l2 & E1 & E2 & ->). apply IHs in E2; [|lia].
      destruct t as [pos n a kids|t|]; cbn [LoadTree.pieces fst] in E1.
      * change (fst (pieces (Elem pos n a kids)) = Some l1) in E1. rewrite pieces_elem in E1. destruct (outcome_at pos n a kids) as [i| | |] eqn:O; try discriminate.
        injection E1 as <-. apply S_elem; [|exact E2]. apply R; [lia|]. exists pos, n, a, kids. split; [reflexivity|exact O].
      * injection E1 as <-. constructor. exact E2.
      * injection E1 as <-. constructor. exact E2.
    + intros [|t ts] l H E; [injection E as <-; constructor|]. rewrite sizes_cons in H. pose proof (size_pos t).
      rewrite looses_cons in E. apply join_some in E as (l1 & l2 & E1 & E2 & ->). apply IHl in E2; [|lia].
      destruct t as [pos n a kids|t|]; cbn [LoadTree.pieces snd] in E1.
      * change (snd (pieces (Elem pos n a kids)) = Some l1) in E1. rewrite pieces_elem in E1. destruct (outcome_at pos n a kids) as [i| | |] eqn:O; try discriminate.
        -- injection E1 as <-. apply L_elem; [|exact E2]. apply R; [lia|]. exists pos, n, a, kids. split; [reflexivity|exact O].
        -- injection E1 as <-. apply L_drop; [|exact E2]. apply R; [lia|]. exists pos, n, a, kids. split; [reflexivity|exact O].
        -- cbn [snd] in E1. rewrite size_elem in H. apply L_open; [eapply opened_opens; exact O|apply IHl; [lia|exact E1]|exact E2].
      * injection E1 as <-. constructor. exact E2.
      * injection E1 as <-. constructor. exact E2.
Qed.
Theorem reads_iff : forall t o, reads t o <-> read_as t o.
Proof. intros t o. split; [apply complete|]. apply (sound (size t)). lia. Qed.
Theorem strict_iff : forall ts l, strict ts l <-> stricts ts = Some l.
Proof. intros t o. split; [apply complete|]. apply (sound (sizes t)). lia. Qed.
Theorem loose_iff : forall ts l, loose ts l <-> looses ts = Some l.
Proof. intros t o. split; [apply complete|]. apply (sound (sizes t)). lia. Qed.
End Bridge.
