(** Proofs about row spans and normalisation. *)
From Coq Require Import Lia Permutation.
From Verif Require Import GoStr Num Style Class Instr Table TableView TableFacts.

Section Spans.
Context {F : Num}.
Implicit Types (h : heap F) (c : cid) (rows : list (trow F)).

Definition active h c : bool :=
  negb (c_rowSpan (deref h c) <=? 1)%Z && authored h c.

(** Reasoning principle for the three nested loops of processRowSpans: [Q r ic n] holds while
    [n] placeholders have been made for the cell at row [r], column [ic]. *)
Section Principle.
Variable rs : cid -> Z.
Variable ok : cid -> Prop.
Variable Q : nat -> nat -> nat -> heap F -> list (trow F) -> Prop.
Hypothesis Hold : forall r ic h rows c, Q r ic 0 h rows -> cell_at rows r ic = Some c -> active h c = true ->
  c_rowSpan (deref h c) = rs c /\ ok c.
Hypothesis Hstep : forall r ic n h rows c, Q r ic n h rows -> cell_at rows r ic = Some c -> (1 < rs c)%Z ->
  n < Z.to_nat (rs c - 1) -> ok c ->
  c < h_next h /\ r + 1 + n <= List.length rows /\
  Q r ic (S n) (fst (row_step ic c (r + 1 + n) rows h)) (snd (row_step ic c (r + 1 + n) rows h)).
Hypothesis Hdone : forall r ic h rows c, Q r ic (Z.to_nat (rs c - 1)) h rows -> cell_at rows r ic = Some c -> (1 < rs c)%Z -> ok c ->
  Q r (S ic) 0 h rows.
Hypothesis Hskip : forall r ic h rows c, Q r ic 0 h rows -> cell_at rows r ic = Some c -> active h c = false ->
  Q r (S ic) 0 h rows.
Hypothesis Hrow : forall r h rows, Q r (List.length (cells rows r)) 0 h rows -> Q (S r) 0 0 h rows.

Lemma principle_cell : forall k n r ic h rows c h' rows', Q r ic n h rows -> cell_at rows r ic = Some c -> (1 < rs c)%Z ->
  n + k = Z.to_nat (rs c - 1) -> ok c ->
  row_placeholders k ic c (r + 1 + n) rows h = (h', rows') ->
  Q r ic (Z.to_nat (rs c - 1)) h' rows' /\ cells rows' r = cells rows r.
Proof.
  induction k as [|k IH]; intros n r ic h rows c h' rows' HQ Hc Hrs Hn Ha E.
  - injection E as <- <-. replace (Z.to_nat (rs c - 1)) with n by lia. auto.
  - rewrite row_placeholders_step in E.
    destruct (Hstep r ic n h rows c HQ Hc Hrs ltac:(lia) Ha) as (H1 & H2 & H3).
    destruct (row_step ic c (r + 1 + n) rows h) as [h1 rows1] eqn:E1. cbn [fst snd] in H3.
    destruct (row_step_spec _ _ _ _ _ _ _ H1 H2 E1) as (zs & p & _ & _ & _ & _ & _ & _ & _ & _ & G & _).
    assert (Hr : cells rows1 r = cells rows r) by (apply G; lia).
    replace (S (r + 1 + n)) with (r + 1 + S n) in E by lia.
    destruct (IH (S n) r ic h1 rows1 c h' rows') as [I1 I2]; auto; try lia.
    + unfold cell_at. rewrite Hr. exact Hc.
    + split; [exact I1|congruence].
Qed.

Lemma skipn_cons_nth : forall A k (l : list A) x l', skipn k l = x :: l' -> nth_error l k = Some x /\ skipn (S k) l = l' /\ k < List.length l.
Proof.
  intros A. induction k as [|k IH]; intros [|y l] x l' H; try discriminate H; simpl in *.
  - injection H as -> ->. repeat split; lia.
  - apply IH in H as (H1 & H2 & H3). repeat split; auto; lia.
Qed.
Lemma principle_row : forall l ic r h rows h' rows', Q r ic 0 h rows -> skipn ic (cells rows r) = l -> ic <= List.length (cells rows r) ->
  row_span_cells r ic l rows h = (h', rows') ->
  Q (S r) 0 0 h' rows'.
Proof.
  induction l as [|c l IH]; intros ic r h rows h' rows' HQ Hl Hic E.
  - injection E as <- <-. apply Hrow.
    assert (G := skipn_length ic (cells rows r)). rewrite Hl in G. simpl in G.
    replace (List.length (cells rows r)) with ic by lia. exact HQ.
  - apply skipn_cons_nth in Hl as (H1 & H2 & H3).
    cbn [row_span_cells] in E.
    assert (Act : active h c = negb ((c_rowSpan (deref h c) <=? 1)%Z ||
       ((match c_spannedBy (deref h c) with Some _ => true | None => false end) || c_zero (deref h c)))).
    { unfold active, authored. destruct (c_rowSpan _ <=? 1)%Z, (c_spannedBy _), (c_zero _); reflexivity. }
    destruct (active h c) eqn:Ea.
    + assert (R1 : (c_rowSpan (deref h c) <=? 1)%Z = false) by (destruct (_ <=? _)%Z; [discriminate Act|reflexivity]).
      assert (R2 : (match c_spannedBy (deref h c) with Some _ => true | None => false end) || c_zero (deref h c) = false).
      { rewrite R1 in Act. destruct (_ || c_zero _); [discriminate Act|reflexivity]. }
      rewrite R1, R2 in E. destruct (Hold _ _ _ _ _ HQ H1 Ea) as [Hrs Hok]. rewrite Hrs in *.
      apply Z.leb_gt in R1.
      destruct (row_placeholders (Z.to_nat (rs c - 1)) ic c (r + 1) rows h) as [h1 rows1] eqn:E1.
      replace (r + 1) with (r + 1 + 0) in E1 by lia.
      destruct (principle_cell (Z.to_nat (rs c - 1)) 0 r ic h rows c h1 rows1 HQ H1 R1 eq_refl Hok E1) as [P1 P2].
      apply (IH (S ic) r h1 rows1 h' rows').
      * apply (Hdone _ _ _ _ _ P1); [unfold cell_at; rewrite P2; exact H1|exact R1|exact Hok].
      * rewrite P2. exact H2.
      * rewrite P2. lia.
      * exact E.
    + assert (E' : row_span_cells r (S ic) l rows h = (h', rows')).
      { destruct (c_rowSpan (deref h c) <=? 1)%Z; [exact E|]. destruct (_ || c_zero _); [exact E|discriminate Act]. }
      apply (IH (S ic) r h rows h' rows'); auto.
      apply (Hskip _ _ _ _ _ HQ H1 Ea).
Qed.
Lemma principle_rows : forall n r h rows h' rows', Q r 0 0 h rows -> row_span_rows n r rows h = (h', rows') -> Q (r + n) 0 0 h' rows'.
Proof.
  induction n as [|n IH]; intros r h rows h' rows' HQ E.
  - injection E as <- <-. rewrite Nat.add_0_r. exact HQ.
  - cbn [row_span_rows] in E. destruct (row_span_cells r 0 _ rows h) as [h1 rows1] eqn:E1.
    assert (Hn : r_cells (nth r rows empty_row) = cells rows r).
    { unfold cells. destruct (nth_error rows r) eqn:En; [rewrite (nth_error_nth _ _ _ En); reflexivity|].
      apply nth_error_None in En. rewrite nth_overflow by exact En. reflexivity. }
    rewrite Hn in E1. replace (r + S n) with (S r + n) by lia. apply (IH (S r) h1 rows1); [|exact E].
    apply (principle_row (cells rows r) 0 r h rows h1 rows1 HQ eq_refl (Nat.le_0_l _) E1).
Qed.
Lemma principle : forall h rows h' rows', Q 0 0 0 h rows -> processRowSpans rows h = (h', rows') -> Q (List.length rows) 0 0 h' rows'.
Proof. intros h rows h' rows' HQ E. exact (principle_rows _ _ _ _ _ _ HQ E). Qed.
End Principle.

(** The facts kept by processRowSpans, relative to its input. *)
Section Inv.
Variables (h1 : heap F) (rows1 : list (trow F)).
Let N := h_next h1.
Definition rs1 c : Z := c_rowSpan (deref h1 c).
(** How many placeholders a cell gets in later rows. *)
Definition wanted c : nat := if active h1 c then Z.to_nat (rs1 c - 1) else 0.
Record J h rows : Prop := mkJ {
  J_next : N <= h_next h;
  J_nodup : NoDup (flat_map r_cells rows);
  J_bound : forall c, In c (flat_map r_cells rows) -> c < h_next h;
  J_old : forall i, filter (fun c => c <? N) (cells rows i) = cells rows1 i;
  J_deref : forall c, c < N -> deref h c = with_spansRows (c_spansRows (deref h c)) (deref h1 c);
  J_new : forall i p, In p (cells rows i) -> N <= p ->
    deref h p = zero_cell \/ exists c, In c (flat_map r_cells rows1) /\ deref h p = spanned_cell c 0%Z /\ In p (c_spansRows (deref h c));
  J_rows : forall c n p, In c (flat_map r_cells rows1) -> nth_error (c_spansRows (deref h c)) n = Some p ->
    N <= p /\ deref h p = spanned_cell c 0%Z /\ exists r, In c (cells rows1 r) /\ In p (cells rows (r + 1 + n));
  J_sty : forall i, sty_at rows i = sty_at rows1 i;
  J_length : List.length rows1 <= List.length rows;
  J_last : forall i, cells rows i = [] \/ exists l x, cells rows i = l ++ [x] /\ c_zero (deref h x) = false
}.
Definition V (r ic n : nat) h rows : Prop :=
  forall r' c, In c (cells rows1 r') ->
    (r' < r -> List.length (c_spansRows (deref h c)) = wanted c) /\
    (r < r' -> c_spansRows (deref h c) = []) /\
    (r' = r -> forall k, cell_at rows r k = Some c ->
       (k < ic -> List.length (c_spansRows (deref h c)) = wanted c) /\
       (k = ic -> List.length (c_spansRows (deref h c)) = n) /\
       (ic < k -> c_spansRows (deref h c) = [])).
(** No row is added beyond what the spans need. *)
Definition B rows : Prop :=
  forall m, List.length rows1 <= m -> (forall r c, In c (cells rows1 r) -> r + 1 + wanted c <= m) -> List.length rows <= m.

Hypothesis Nodup1 : NoDup (flat_map r_cells rows1).
Hypothesis Bound1 : forall c, In c (flat_map r_cells rows1) -> c < N.
Hypothesis NoRows1 : forall c, In c (flat_map r_cells rows1) -> c_spansRows (deref h1 c) = [].
Hypothesis NoZero1 : forall c, In c (flat_map r_cells rows1) -> c_zero (deref h1 c) = false.

Lemma in_two_rows : forall rows r r' c, NoDup (flat_map r_cells rows) -> In c (cells rows r) -> In c (cells rows r') -> r = r'.
Proof.
  intros rows. induction rows as [|row rows IH]; intros r r' c ND H1 H2.
  - unfold cells in H1. destruct r; contradiction.
  - cbn [flat_map] in ND. apply NoDup_app_iff in ND as (A & B & C).
    destruct r as [|r], r' as [|r']; [reflexivity| | |f_equal; apply (IH r r' c B H1 H2)]; exfalso.
    + apply (C c H1). apply (in_cells_flat rows r' c H2).
    + apply (C c H2). apply (in_cells_flat rows r c H1).
Qed.
Lemma nodup_row : forall rows r, NoDup (flat_map r_cells rows) -> NoDup (cells rows r).
Proof.
  induction rows as [|row rows IH]; intros r ND.
  - unfold cells. destruct r; constructor.
  - cbn [flat_map] in ND. apply NoDup_app_iff in ND as (A & C & _). destruct r; [exact A|apply (IH r C)].
Qed.
Lemma J_in_old : forall h rows i c, J h rows -> In c (cells rows1 i) -> In c (cells rows i) /\ c < N.
Proof.
  intros h rows i c HJ H. rewrite <- (J_old _ _ HJ i) in H. apply filter_In in H as [H1 H2]. apply Nat.ltb_lt in H2. auto.
Qed.
Lemma J_old_in : forall h rows i c, J h rows -> In c (cells rows i) -> c < N -> In c (cells rows1 i).
Proof.
  intros h rows i c HJ H Hc. rewrite <- (J_old _ _ HJ i). apply filter_In. split; [exact H|]. apply Nat.ltb_lt. exact Hc.
Qed.
Lemma J_active_old : forall h rows i c, J h rows -> In c (cells rows i) -> active h c = true -> c < N.
Proof.
  intros h rows i c HJ H Ha. destruct (Nat.lt_ge_cases c N) as [|Hge]; [assumption|]. exfalso.
  unfold active, authored in Ha. destruct (J_new _ _ HJ i c H Hge) as [E|(c0 & _ & E & _)]; rewrite E in Ha; discriminate Ha.
Qed.
Lemma J_active : forall h rows c, J h rows -> c < N -> active h c = active h1 c.
Proof. intros h rows c HJ Hc. unfold active, authored. rewrite (J_deref _ _ HJ c Hc). reflexivity. Qed.

Lemma with_spansRows_same : forall x : tcell F, with_spansRows (c_spansRows x) x = x.
Proof. intros []. reflexivity. Qed.
Lemma J_init : J h1 rows1.
Proof.
  constructor; auto.
  - intros i. assert (G : forall c, In c (cells rows1 i) -> c < N) by (intros c Hc; apply Bound1; exact (in_cells_flat _ _ _ Hc)).
    induction (cells rows1 i) as [|c l IH]; [reflexivity|]. simpl. rewrite (proj2 (Nat.ltb_lt c N)) by (apply G; left; reflexivity).
    rewrite IH; [reflexivity|]. intros; apply G; right; assumption.
  - intros c Hc. symmetry. apply with_spansRows_same.
  - intros i p Hp Hge. apply in_cells_flat in Hp. apply Bound1 in Hp. lia.
  - intros c n p Hc H. rewrite NoRows1 in H by exact Hc. destruct n; discriminate H.
  - intros i. destruct (cells rows1 i) as [|x l] eqn:E; [left; reflexivity|right].
    destruct (@exists_last _ (x :: l)) as (l' & y & Hl); [discriminate|]. exists l', y. split; [exact Hl|].
    apply NoZero1. apply (in_cells_flat rows1 i). rewrite E, Hl. apply in_or_app. right. left. reflexivity.
Qed.

Lemma J_step : forall r ic n h rows c, J h rows -> cell_at rows r ic = Some c -> c < N ->
  List.length (c_spansRows (deref h c)) = n -> r + 1 + n <= List.length rows ->
  J (fst (row_step ic c (r + 1 + n) rows h)) (snd (row_step ic c (r + 1 + n) rows h)).
Proof.
  intros r ic n h rows c HJ Hc HcN Hn Hlen.
  destruct (row_step ic c (r + 1 + n) rows h) as [h' rows'] eqn:E. cbn [fst snd].
  assert (Hch : c < h_next h) by (assert (G := J_next _ _ HJ); lia).
  destruct (row_step_spec _ _ _ _ _ _ _ Hch Hlen E) as (zs & p & Zs & Pp & Nx & Dz & Dp & Dc & Do & Cr & Co & Ln & Pm & Sy).
  assert (Hnext := J_next _ _ HJ). set (ri := r + 1 + n) in *.
  assert (Pge : h_next h <= p) by (rewrite Pp; apply Nat.le_add_r).
  assert (Zge : forall z, In z zs -> h_next h <= z < p).
  { intros z Hz. rewrite Pp. rewrite Zs in Hz |- *. rewrite seq_length. apply in_seq in Hz. lia. }
  assert (Inri : forall x, In x (cells rows' ri) <-> x = p \/ In x (cells rows ri) \/ In x zs).
  { intro x. rewrite Cr. rewrite !in_app_iff. cbn [In]. rewrite <- (firstn_skipn ic (cells rows ri ++ zs)) at 1.
    assert (G : In x (cells rows ri) \/ In x zs <-> In x (firstn ic (cells rows ri ++ zs)) \/ In x (skipn ic (cells rows ri ++ zs))).
    { rewrite <- !in_app_iff, firstn_skipn. tauto. }
    rewrite G. rewrite firstn_skipn. intuition. }
  assert (Incl : forall i x, In x (cells rows i) -> In x (cells rows' i)).
  { intros i x Hx. destruct (Nat.eq_dec i ri) as [->|Hi]; [apply Inri; tauto|rewrite Co by exact Hi; exact Hx]. }
  assert (Old : forall x, x < h_next h -> x <> c -> deref h' x = deref h x) by exact Do.
  assert (Hcr : In c (cells rows r)) by (apply nth_error_In in Hc; exact Hc).
  assert (Hcf : In c (flat_map r_cells rows1)) by (apply (in_cells_flat rows1 r); exact (J_old_in h rows r c HJ Hcr HcN)).
  constructor.
  - fold N in Hnext. lia.
  - rewrite Pm. constructor.
    + rewrite in_app_iff. intros [G|G]; [specialize (Zge p G); lia|]. apply (J_bound _ _ HJ) in G. lia.
    + apply NoDup_app_iff. split; [rewrite Zs; apply seq_NoDup|]. split; [exact (J_nodup _ _ HJ)|].
      intros x Hx G. specialize (Zge x Hx). apply (J_bound _ _ HJ) in G. lia.
  - intros x Hx. rewrite Pm in Hx. rewrite Nx. destruct Hx as [<-|Hx]; [lia|]. apply in_app_or in Hx. destruct Hx as [Hx|Hx].
    + specialize (Zge x Hx). lia.
    + apply (J_bound _ _ HJ) in Hx. lia.
  - intros i. destruct (Nat.eq_dec i ri) as [->|Hi]; [|rewrite Co by exact Hi; apply (J_old _ _ HJ)].
    rewrite <- (J_old _ _ HJ ri). rewrite Cr. rewrite !filter_app. cbn [filter].
    rewrite (proj2 (Nat.ltb_ge p N)) by (fold N in Hnext; lia). cbn [app].
    rewrite <- filter_app, firstn_skipn, filter_app.
    assert (G : @filter cid (fun x : cid => x <? N) zs = []).
    { clear -Zge Hnext. induction zs as [|z zs IH]; [reflexivity|]. simpl. rewrite (proj2 (Nat.ltb_ge z N)).
      - apply IH. intros; apply Zge; right; assumption.
      - specialize (Zge z (or_introl eq_refl)). fold N in Hnext. lia. }
    rewrite G. apply app_nil_r.
  - intros x Hx. destruct (Nat.eq_dec x c) as [->|Hxc].
    + rewrite Dc. rewrite (J_deref _ _ HJ c Hx) at 2. reflexivity.
    + rewrite Old; [apply (J_deref _ _ HJ x Hx)|fold N in Hnext; lia|exact Hxc].
  - intros i q Hq Hge.
    assert (Cases : q = p \/ In q zs \/ In q (cells rows i)).
    { destruct (Nat.eq_dec i ri) as [->|Hi]; [apply Inri in Hq; tauto|rewrite Co in Hq by exact Hi; tauto]. }
    destruct Cases as [->|[Hz|Hq']].
    + right. exists c. split; [exact Hcf|]. split; [exact Dp|]. rewrite Dc. cbn [c_spansRows with_spansRows]. apply in_or_app. right. left. reflexivity.
    + left. apply Dz. exact Hz.
    + assert (Hqh := J_bound _ _ HJ q (in_cells_flat _ _ _ Hq')).
      rewrite Old; [|exact Hqh|lia].
      destruct (J_new _ _ HJ i q Hq' Hge) as [G|(c0 & G1 & G2 & G3)]; [left; exact G|right]. exists c0. split; [exact G1|]. split; [exact G2|].
      destruct (Nat.eq_dec c0 c) as [->|Hne].
      * rewrite Dc. cbn [c_spansRows with_spansRows]. apply in_or_app. left. exact G3.
      * apply Bound1 in G1. rewrite Old; [exact G3|fold N in Hnext; lia|exact Hne].
  - intros x m q Hx Hm. destruct (Nat.eq_dec x c) as [->|Hxc].
    + rewrite Dc in Hm. cbn [c_spansRows with_spansRows] in Hm.
      destruct (Nat.lt_ge_cases m (List.length (c_spansRows (deref h c)))) as [Hlt|Hge].
      * rewrite nth_error_app1 in Hm by exact Hlt. destruct (J_rows _ _ HJ c m q Hcf Hm) as (G1 & G2 & r0 & G3 & G4).
        assert (Hqh := J_bound _ _ HJ q (in_cells_flat _ _ _ G4)).
        split; [exact G1|]. split; [rewrite Old; [exact G2|exact Hqh|lia]|]. exists r0. split; [exact G3|apply Incl; exact G4].
      * rewrite nth_error_app2 in Hm by exact Hge.
        destruct (m - List.length (c_spansRows (deref h c))) as [|k] eqn:Em; [|destruct k; discriminate Hm].
        injection Hm as <-. split; [fold N in Hnext; lia|]. split; [exact Dp|]. exists r.
        split; [apply (J_old_in h rows r c HJ Hcr HcN)|]. replace (r + 1 + m) with ri by (unfold ri; lia). apply Inri. left. reflexivity.
    + assert (HxN := Bound1 x Hx). rewrite Old in Hm; [|fold N in Hnext; lia|exact Hxc]. destruct (J_rows _ _ HJ x m q Hx Hm) as (G1 & G2 & r0 & G3 & G4).
      assert (Hqh := J_bound _ _ HJ q (in_cells_flat _ _ _ G4)).
      split; [exact G1|]. split; [rewrite Old; [exact G2|exact Hqh|lia]|]. exists r0. split; [exact G3|apply Incl; exact G4].
  - intros i. rewrite Sy. apply (J_sty _ _ HJ).
  - rewrite Ln. assert (G := J_length _ _ HJ). lia.
  - assert (Keep : forall x, In x (flat_map r_cells rows) -> c_zero (deref h x) = false -> c_zero (deref h' x) = false).
    { intros x Hx Hz. destruct (Nat.eq_dec x c) as [->|Hne]; [rewrite Dc; exact Hz|].
      rewrite Old; [exact Hz|apply (J_bound _ _ HJ); exact Hx|exact Hne]. }
    assert (In_last : forall l (x : cid) i, cells rows i = l ++ [x] -> In x (flat_map r_cells rows)).
    { intros l x i Hl. apply (in_cells_flat rows i). rewrite Hl. apply in_or_app. right. left. reflexivity. }
    assert (Pz : c_zero (deref h' p) = false) by (rewrite Dp; reflexivity).
    intros i. destruct (Nat.eq_dec i ri) as [->|Hi].
    2:{ rewrite Co by exact Hi. destruct (J_last _ _ HJ i) as [G|(l & x & G1 & G2)]; [left; exact G|right].
        exists l, x. split; [exact G1|]. apply Keep; [exact (In_last _ _ _ G1)|exact G2]. }
    right. rewrite Cr. destruct (Nat.le_gt_cases (List.length (cells rows ri)) ic) as [Hle|Hgt].
    + exists (firstn ic (cells rows ri ++ zs)), p. split; [|exact Pz]. rewrite (skipn_all2 (n:=ic)); [reflexivity|].
      rewrite app_length, Zs, seq_length. unfold cid in *. lia.
    + assert (Z0 : zs = []). { rewrite Zs. replace (ic - List.length (cells rows ri)) with 0 by (unfold cid in *; lia). reflexivity. }
      rewrite Z0, app_nil_r. destruct (J_last _ _ HJ ri) as [G|(l & x & G1 & G2)]; [rewrite G in Hgt; simpl in Hgt; lia|].
      rewrite G1 in Hgt |- *. rewrite app_length in Hgt. simpl in Hgt.
      exists (firstn ic l ++ [p] ++ skipn ic l), x. split; [|apply Keep; [exact (In_last _ _ _ G1)|exact G2]].
      rewrite firstn_app, skipn_app. replace (ic - List.length l) with 0 by (unfold cid in *; lia). simpl. rewrite app_nil_r, <- app_assoc. reflexivity.
Qed.

Definition Q (r ic n : nat) h rows : Prop := J h rows /\ V r ic n h rows /\ B rows.
Definition ok c : Prop := c < N /\ active h1 c = true.

Lemma V_at : forall r ic n h rows c, J h rows -> V r ic n h rows -> cell_at rows r ic = Some c -> c < N ->
  List.length (c_spansRows (deref h c)) = n.
Proof.
  intros r ic n h rows c HJ HV Hc HN. assert (Hin := nth_error_In _ _ Hc).
  destruct (HV r c (J_old_in _ _ _ _ HJ Hin HN)) as (_ & _ & G). apply (G eq_refl ic Hc). reflexivity.
Qed.
Lemma cell_at_inj : forall rows r k k' c, NoDup (flat_map r_cells rows) -> cell_at rows r k = Some c -> cell_at rows r k' = Some c -> k = k'.
Proof.
  intros rows r k k' c ND H1 H2. assert (G := nodup_row rows r ND). rewrite NoDup_nth_error in G. apply G.
  - apply nth_error_Some. unfold cell_at in H1. congruence.
  - unfold cell_at in *. congruence.
Qed.
Lemma Q_room : forall r ic n h rows c, Q r ic n h rows -> cell_at rows r ic = Some c -> c < N -> r + 1 + n <= List.length rows.
Proof.
  intros r ic n h rows c (HJ & HV & _) Hc HN. assert (L := V_at _ _ _ _ _ _ HJ HV Hc HN).
  destruct n as [|n].
  - assert (r < List.length rows); [|lia]. destruct (Nat.lt_ge_cases r (List.length rows)) as [|G]; [assumption|].
    unfold cell_at in Hc. rewrite cells_beyond in Hc by exact G. destruct ic; discriminate Hc.
  - destruct (nth_error (c_spansRows (deref h c)) n) as [p|] eqn:En; [|apply nth_error_None in En; lia].
    assert (Hcf : In c (flat_map r_cells rows1)) by (apply (in_cells_flat rows1 r); exact (J_old_in h rows r c HJ (nth_error_In _ _ Hc) HN)).
    destruct (J_rows _ _ HJ c n p Hcf En) as (_ & _ & r0 & G1 & G2).
    assert (r0 = r).
    { apply (in_two_rows rows1 r0 r c Nodup1 G1). apply (J_old_in _ _ _ _ HJ (nth_error_In _ _ Hc) HN). }
    subst r0. destruct (Nat.lt_ge_cases (r + 1 + n) (List.length rows)) as [|G]; [lia|].
    rewrite cells_beyond in G2 by exact G. contradiction.
Qed.
Lemma Q_init : Q 0 0 0 h1 rows1.
Proof.
  split; [exact J_init|]. split; [|intros m Hm _; exact Hm].
  intros r' c Hc. assert (HN := Bound1 c (in_cells_flat _ _ _ Hc)). rewrite NoRows1 by exact (in_cells_flat _ _ _ Hc).
  split; [lia|]. split; [reflexivity|]. intros _ k _. split; [lia|]. split; reflexivity.
Qed.
Lemma Q_old : forall r ic h rows c, Q r ic 0 h rows -> cell_at rows r ic = Some c -> active h c = true ->
  c_rowSpan (deref h c) = rs1 c /\ ok c.
Proof.
  intros r ic h rows c (HJ & _ & _) Hc Ha. assert (HN := J_active_old _ _ _ _ HJ (nth_error_In _ _ Hc) Ha).
  rewrite (J_active _ _ _ HJ HN) in Ha. unfold ok. split; [|auto]. rewrite (J_deref _ _ HJ c HN). reflexivity.
Qed.
Lemma Q_step : forall r ic n h rows c, Q r ic n h rows -> cell_at rows r ic = Some c -> (1 < rs1 c)%Z ->
  n < Z.to_nat (rs1 c - 1) -> ok c ->
  c < h_next h /\ r + 1 + n <= List.length rows /\
  Q r ic (S n) (fst (row_step ic c (r + 1 + n) rows h)) (snd (row_step ic c (r + 1 + n) rows h)).
Proof.
  intros r ic n h rows c HQ Hc Hrs Hn [HN Ha]. assert (HQ' := HQ). destruct HQ' as (HJ & HV & HB).
  assert (Hroom := Q_room _ _ _ _ _ _ HQ Hc HN). assert (L := V_at _ _ _ _ _ _ HJ HV Hc HN).
  assert (Hch : c < h_next h) by (assert (G := J_next _ _ HJ); fold N in G; lia).
  assert (HJ' := J_step r ic n h rows c HJ Hc HN L Hroom).
  split; [exact Hch|]. split; [exact Hroom|]. split; [exact HJ'|].
  destruct (row_step ic c (r + 1 + n) rows h) as [h' rows'] eqn:E. cbn [fst snd] in *.
  destruct (row_step_spec _ _ _ _ _ _ _ Hch Hroom E) as (zs & p & Zs & Pp & Nx & Dz & Dp & Dc & Do & Cr & Co & Ln & Pm & Sy).
  assert (Hr : cells rows' r = cells rows r) by (apply Co; lia).
  assert (Hin := nth_error_In _ _ Hc). assert (Hin1 := J_old_in _ _ _ _ HJ Hin HN).
  split.
  - intros r' x Hx. destruct (J_in_old _ _ _ _ HJ Hx) as [Hx1 Hx2].
    destruct (HV r' x Hx) as (V1 & V2 & V3).
    destruct (Nat.eq_dec x c) as [->|Hne].
    + assert (r' = r) by (apply (in_two_rows rows1 r' r c Nodup1 Hx Hin1)). subst r'.
      split; [lia|]. split; [lia|]. intros _ k Hk.
      assert (k = ic).
      { apply (cell_at_inj rows r k ic c (J_nodup _ _ HJ)); [unfold cell_at in *; rewrite <- Hr; exact Hk|exact Hc]. }
      subst k. split; [lia|]. split; [intros _|lia]. rewrite Dc. cbn [c_spansRows with_spansRows]. rewrite app_length. simpl. lia.
    + rewrite (Do x); [|assert (G := J_next _ _ HJ); fold N in G; lia|exact Hne].
      split; [exact V1|]. split; [exact V2|]. intros Hr' k Hk.
      assert (Hk' : cell_at rows r k = Some x) by (unfold cell_at in *; rewrite <- Hr; exact Hk).
      destruct (V3 Hr' k Hk') as (W1 & W2 & W3). split; [exact W1|]. split; [|exact W3].
      intros ->. exfalso. apply Hne. congruence.
  - intros m Hm1 Hm2. rewrite Ln. assert (G1 := HB m Hm1 Hm2). assert (G2 := Hm2 r c Hin1). unfold wanted in G2. rewrite Ha in G2. lia.
Qed.
Lemma Q_done : forall r ic h rows c, Q r ic (Z.to_nat (rs1 c - 1)) h rows -> cell_at rows r ic = Some c -> (1 < rs1 c)%Z -> ok c ->
  Q r (S ic) 0 h rows.
Proof.
  intros r ic h rows c (HJ & HV & HB) Hc Hrs [HN Ha]. split; [exact HJ|]. split; [|exact HB].
  intros r' x Hx. destruct (HV r' x Hx) as (V1 & V2 & V3). split; [exact V1|]. split; [exact V2|].
  intros Hr k Hk. destruct (V3 Hr k Hk) as (W1 & W2 & W3). split.
  - intros Hlt. destruct (Nat.eq_dec k ic) as [->|Hne]; [|apply W1; lia].
    rewrite (W2 eq_refl). assert (x = c) by congruence. subst x. unfold wanted. rewrite Ha. reflexivity.
  - split; [intros ->; rewrite W3 by lia; reflexivity|intros; apply W3; lia].
Qed.
Lemma Q_skip : forall r ic h rows c, Q r ic 0 h rows -> cell_at rows r ic = Some c -> active h c = false ->
  Q r (S ic) 0 h rows.
Proof.
  intros r ic h rows c (HJ & HV & HB) Hc Ha. split; [exact HJ|]. split; [|exact HB].
  intros r' x Hx. destruct (HV r' x Hx) as (V1 & V2 & V3). split; [exact V1|]. split; [exact V2|].
  intros Hr k Hk. destruct (V3 Hr k Hk) as (W1 & W2 & W3). split.
  - intros Hlt. destruct (Nat.eq_dec k ic) as [->|Hne]; [|apply W1; lia].
    rewrite (W2 eq_refl). assert (x = c) by congruence. subst x. unfold wanted.
    destruct (J_in_old _ _ _ _ HJ Hx) as [_ HN]. rewrite <- (J_active _ _ _ HJ HN), Ha. reflexivity.
  - split; [intros ->; rewrite W3 by lia; reflexivity|intros; apply W3; lia].
Qed.
Lemma Q_row : forall r h rows, Q r (List.length (cells rows r)) 0 h rows -> Q (S r) 0 0 h rows.
Proof.
  intros r h rows (HJ & HV & HB). split; [exact HJ|]. split; [|exact HB].
  intros r' x Hx. destruct (HV r' x Hx) as (V1 & V2 & V3). split.
  - intros Hlt. destruct (Nat.eq_dec r' r) as [->|Hne]; [|apply V1; lia].
    destruct (J_in_old _ _ _ _ HJ Hx) as [Hx1 _]. apply In_nth_error in Hx1 as [k Hk].
    apply (V3 eq_refl k Hk). apply nth_error_Some. congruence.
  - split; [intros; apply V2; lia|]. intros -> k Hk. rewrite V2 by lia. split; [lia|]. split; reflexivity.
Qed.

Lemma processRowSpans_Q : forall h rows, processRowSpans rows1 h1 = (h, rows) -> Q (List.length rows1) 0 0 h rows.
Proof. exact (fun h rows => principle rs1 ok Q Q_old Q_step Q_done Q_skip Q_row h1 rows1 h rows Q_init). Qed.

Lemma processRowSpans_spec : forall h rows, processRowSpans rows1 h1 = (h, rows) ->
  J h rows /\ (forall r c, In c (cells rows1 r) -> List.length (c_spansRows (deref h c)) = wanted c) /\ B rows.
Proof.
  intros h rows E. destruct (processRowSpans_Q h rows E) as (HJ & HV & HB). split; [exact HJ|]. split; [|exact HB].
  intros r c Hc. apply (HV r c Hc). destruct (Nat.lt_ge_cases r (List.length rows1)) as [|G]; [assumption|].
  rewrite cells_beyond in Hc by exact G. contradiction.
Qed.

(** Positions: rows out of reach of row spans keep their cells; without staggered row spans
    each placeholder stays in the column of its cell. *)
Definition reached (r : nat) : Prop := exists r0 c, In c (cells rows1 r0) /\ r0 < r /\ r <= r0 + wanted c.
Definition straight : Prop := forall r r' c c', In c (cells rows1 r) -> In c' (cells rows1 r') ->
  active h1 c = true -> active h1 c' = true -> r < r' -> r + wanted c < r'.
Definition K h rows : Prop :=
  (forall r, ~ reached r -> cells rows r = cells rows1 r) /\
  (straight -> forall c r k m p, In c (cells rows1 r) -> cell_at rows r k = Some c ->
     nth_error (c_spansRows (deref h c)) m = Some p -> cell_at rows (r + 1 + m) k = Some p).
Definition QK (r ic n : nat) h rows : Prop := Q r ic n h rows /\ K h rows.

Lemma nth_error_firstn' : forall A k i (l : list A), k < i -> nth_error (firstn i l) k = nth_error l k.
Proof.
  intros A k. induction k as [|k IH]; intros [|i] [|x l] H; simpl; try reflexivity; try lia. apply IH. lia.
Qed.
Lemma QK_step : forall r ic n h rows c, QK r ic n h rows -> cell_at rows r ic = Some c -> (1 < rs1 c)%Z ->
  n < Z.to_nat (rs1 c - 1) -> ok c ->
  c < h_next h /\ r + 1 + n <= List.length rows /\
  QK r ic (S n) (fst (row_step ic c (r + 1 + n) rows h)) (snd (row_step ic c (r + 1 + n) rows h)).
Proof.
  intros r ic n h rows c [HQ [HK1 HK2]] Hc Hrs Hn Hok.
  destruct (Q_step r ic n h rows c HQ Hc Hrs Hn Hok) as (G1 & G2 & HQ'). split; [exact G1|]. split; [exact G2|].
  split; [exact HQ'|]. clear HQ'. destruct Hok as [HN Ha]. destruct HQ as (HJ & HV & HB).
  assert (L := V_at _ _ _ _ _ _ HJ HV Hc HN).
  destruct (row_step ic c (r + 1 + n) rows h) as [h' rows'] eqn:E. cbn [fst snd] in *.
  destruct (row_step_spec _ _ _ _ _ _ _ G1 G2 E) as (zs & p & Zs & Pp & Nx & Dz & Dp & Dc & Do & Cr & Co & Ln & Pm & Sy).
  assert (Hin := J_old_in _ _ _ _ HJ (nth_error_In _ _ Hc) HN).
  assert (Wc : wanted c = Z.to_nat (rs1 c - 1)) by (unfold wanted; rewrite Ha; reflexivity).
  assert (Lz : ic <= List.length (cells rows (r + 1 + n) ++ zs)).
  { rewrite app_length, Zs, seq_length. unfold cid in *. lia. }
  split.
  - intros r' Hr'. rewrite Co; [apply HK1; exact Hr'|]. intros ->. apply Hr'. exists r, c. split; [exact Hin|]. lia.
  - intros Hst x r0 k m q Hx Hk Hm.
    destruct (J_in_old _ _ _ _ HJ Hx) as [Hx1 Hx2].
    destruct (Nat.eq_dec x c) as [->|Hne].
    + assert (r0 = r) by (apply (in_two_rows rows1 r0 r c Nodup1 Hx Hin)). subst r0.
      assert (Hkr : cell_at rows r k = Some c) by (unfold cell_at in *; rewrite Co in Hk by lia; exact Hk).
      assert (k = ic) by (apply (cell_at_inj rows r k ic c (J_nodup _ _ HJ)); assumption). subst k.
      rewrite Dc in Hm. cbn [c_spansRows with_spansRows] in Hm.
      destruct (Nat.lt_ge_cases m n) as [Hlt|Hge].
      * rewrite nth_error_app1 in Hm by lia. unfold cell_at. rewrite Co by lia. apply (HK2 Hst c r ic m q Hx Hc Hm).
      * rewrite nth_error_app2 in Hm by lia. rewrite L in Hm. destruct (m - n) as [|j] eqn:Ej; [|destruct j; discriminate Hm].
        injection Hm as <-. replace m with n by lia. unfold cell_at. rewrite Cr.
        rewrite nth_error_app2; rewrite firstn_length_le by exact Lz; [|lia]. rewrite Nat.sub_diag. reflexivity.
    + rewrite (Do x) in Hm; [|assert (G := J_next _ _ HJ); fold N in G; lia|exact Hne].
      destruct (HV r0 x Hx) as (V1 & V2 & V3).
      assert (Hnn : c_spansRows (deref h x) <> []) by (intro G; rewrite G in Hm; destruct m; discriminate Hm).
      assert (Hr0 : r0 <= r) by (destruct (Nat.le_gt_cases r0 r) as [|G]; [assumption|]; exfalso; apply Hnn; apply V2; exact G).
      assert (Hkr : cell_at rows r0 k = Some x) by (unfold cell_at in *; rewrite Co in Hk by lia; exact Hk).
      assert (Old := HK2 Hst x r0 k m q Hx Hkr Hm).
      destruct (Nat.eq_dec (r0 + 1 + m) (r + 1 + n)) as [Heq|Hd]; [|unfold cell_at; rewrite Co by exact Hd; exact Old].
      destruct (Nat.eq_dec r0 r) as [->|Hrr].
      * destruct (V3 eq_refl k Hkr) as (_ & W2 & W3).
        assert (k < ic).
        { destruct (Nat.lt_trichotomy k ic) as [|[->|G]]; [assumption| |exfalso; apply Hnn; apply W3; exact G]. exfalso. apply Hne. congruence. }
        rewrite Heq in Old |- *. unfold cell_at in *. rewrite Cr.
        rewrite nth_error_app1 by (rewrite firstn_length_le by exact Lz; exact H).
        assert (Hko : k < List.length (cells rows (r + 1 + n))) by (apply nth_error_Some; congruence).
        exact (eq_trans (nth_error_firstn' _ _ _ _ H) (eq_trans (nth_error_app1 _ zs Hko) Old)).
      * exfalso. assert (Wx := V1 ltac:(lia)).
        assert (Ax : active h1 x = true).
        { destruct (active h1 x) eqn:G; [reflexivity|]. unfold wanted in Wx. rewrite G in Wx. exfalso. apply Hnn. destruct (c_spansRows (deref h x)); [reflexivity|discriminate Wx]. }
        assert (S1 := Hst r0 r x c Hx Hin Ax Ha ltac:(lia)).
        assert (m < List.length (c_spansRows (deref h x))) by (apply nth_error_Some; congruence). lia.
Qed.
Lemma processRowSpans_K : forall h rows, processRowSpans rows1 h1 = (h, rows) -> K h rows.
Proof.
  intros h rows E. refine (proj2 (principle rs1 ok QK _ QK_step _ _ _ h1 rows1 h rows _ E)).
  - intros r ic h' rows' c [H _]. apply Q_old with (1 := H).
  - intros r ic h' rows' c [H HK] H1 H2 H3. split; [exact (Q_done _ _ _ _ _ H H1 H2 H3)|exact HK].
  - intros r ic h' rows' c [H HK] H1 H2. split; [exact (Q_skip _ _ _ _ _ H H1 H2)|exact HK].
  - intros r h' rows' [H HK]. split; [exact (Q_row _ _ _ H)|exact HK].
  - split; [exact Q_init|]. split; [reflexivity|]. intros _ c r k m p Hc _ Hm. rewrite NoRows1 in Hm by exact (in_cells_flat _ _ _ Hc). destruct m; discriminate Hm.
Qed.
End Inv.
End Spans.
