(** Proofs about building tables, column widths and row heights. *)
From Coq Require Import Lia Permutation.
From Verif Require Import GoStr Num Style Class Instr Engine Layout Grid Table Lines Proc EngineFacts TableView TableFacts SpanFacts NormFacts.
Local Open Scope num_scope.

Section Width.
Context {F : Num}.
Implicit Types (h : heap F) (c : cid) (rows : list (trow F)).

(** A cell without its sizes; heaps that differ in sizes only. *)
Definition sizeless (x : tcell F) : tcell F := with_width zero (with_height zero (with_minHeight zero x)).
Definition sized h h' : Prop := h_next h' = h_next h /\ forall c, sizeless (deref h' c) = sizeless (deref h c).
Lemma sized_refl : forall h, sized h h.
Proof. split; reflexivity. Qed.
Lemma sized_trans : forall h1 h2 h3, sized h1 h2 -> sized h2 h3 -> sized h1 h3.
Proof. intros h1 h2 h3 [A1 A2] [B1 B2]. split; [congruence|]. intro c. rewrite B2. apply A2. Qed.
Lemma sized_update : forall h c f, (forall x, sizeless (f x) = sizeless x) -> sized h (update c f h).
Proof.
  intros h c f Hf. split; [reflexivity|]. intro x. destruct (Nat.eq_dec x c) as [->|Hne].
  - rewrite deref_update_eq. apply Hf.
  - rewrite deref_update_ne by exact Hne. reflexivity.
Qed.

Lemma Spanned_sized : forall h0 rows0 h rows cols h' rows', Spanned h0 rows0 h rows cols -> sized h h' ->
  map r_cells rows' = map r_cells rows -> map r_sty rows' = map r_sty rows -> Spanned h0 rows0 h' rows' cols.
Proof.
  intros h0 rows0 h rows cols h' rows' S [Z1 Z2] Hc Hs.
  assert (C : forall i, cells rows' i = cells rows i).
  { intro i. unfold cells. assert (G : nth_error (map r_cells rows') i = nth_error (map r_cells rows) i) by (rewrite Hc; reflexivity).
    rewrite !nth_error_map in G. destruct (nth_error rows' i), (nth_error rows i); simpl in G; congruence. }
  assert (Y : forall i, sty_at rows' i = sty_at rows i).
  { intro i. unfold sty_at. assert (G : nth_error (map r_sty rows') i = nth_error (map r_sty rows) i) by (rewrite Hs; reflexivity).
    rewrite !nth_error_map in G. destruct (nth_error rows' i), (nth_error rows i); simpl in G; congruence. }
  assert (L : List.length rows' = List.length rows) by (rewrite <- (map_length r_cells rows'), Hc; apply map_length).
  assert (FM : flat_map r_cells rows' = flat_map r_cells rows) by (rewrite !flat_map_concat_map, Hc; reflexivity).
  assert (CA : forall i j, cell_at rows' i j = cell_at rows i j) by (intros i j; unfold cell_at; rewrite C; reflexivity).
  assert (U : forall c, unidx (deref h' c) = unidx (deref h c)).
  { intro c. change (with_idx 0 0 (sizeless (deref h' c)) = with_idx 0 0 (sizeless (deref h c))). rewrite Z2. reflexivity. }
  assert (SR : forall c, c_spansRows (deref h' c) = c_spansRows (deref h c)).
  { intro c. change (c_spansRows (sizeless (deref h' c)) = c_spansRows (sizeless (deref h c))). rewrite Z2. reflexivity. }
  assert (SC : forall c, c_spansCols (deref h' c) = c_spansCols (deref h c)).
  { intro c. change (c_spansCols (sizeless (deref h' c)) = c_spansCols (sizeless (deref h c))). rewrite Z2. reflexivity. }
  assert (RI : forall c, c_rowIdx (deref h' c) = c_rowIdx (deref h c)).
  { intro c. change (c_rowIdx (sizeless (deref h' c)) = c_rowIdx (sizeless (deref h c))). rewrite Z2. reflexivity. }
  assert (CI : forall c, c_cellIdx (deref h' c) = c_cellIdx (deref h c)).
  { intro c. change (c_cellIdx (sizeless (deref h' c)) = c_cellIdx (sizeless (deref h c))). rewrite Z2. reflexivity. }
  assert (ZZ : forall c, c_zero (deref h' c) = c_zero (deref h c)).
  { intro c. change (c_zero (sizeless (deref h' c)) = c_zero (sizeless (deref h c))). rewrite Z2. reflexivity. }
  assert (AU : forall c, authored h' c = authored h c).
  { intro c. rewrite !authored_unidx, U. reflexivity. }
  destruct S as [S_rect0 S_idx0 S_tight0 S_nodup0 S_bound0 S_authored0 S_content0 S_cols0 S_rows0 S_others0 S_order0 S_sty0 S_least0 S_length0 S_unreached0 S_straight0]. constructor.
  - intros i Hi. rewrite C. apply S_rect0. lia.
  - intros i j c H. rewrite RI, CI. apply S_idx0. rewrite <- CA. exact H.
  - destruct S_tight0 as [H|(i & c & H1 & H2)]; [left; exact H|right]. exists i, c. rewrite CA, ZZ. auto.
  - rewrite FM. exact S_nodup0.
  - intros c H. rewrite FM in H. rewrite Z1. auto.
  - intros i. rewrite C, <- S_authored0. apply filter_ext_in'. intros; apply AU.
  - intros i c H. rewrite U, SR, SC. exact (S_content0 i c H).
  - intros i c H. rewrite SC. destruct (S_cols0 i c H) as (A1 & A2 & A3). split; [exact A1|]. split; [exact A2|]. intros p Hp. rewrite C, U. auto.
  - intros i c H. rewrite SR. destruct (S_rows0 i c H) as (A1 & A2). split; [exact A1|]. intros n p Hp. rewrite C, U. auto.
  - intros i p H1 H2. rewrite AU in H2. rewrite C in H1. rewrite U. destruct (S_others0 i p H1 H2) as [G|(c & G)]; [left; exact G|right].
    exists c. rewrite SC, SR. exact G.
  - intros i. rewrite C. transitivity (flat_map (fun c => c :: c_spansCols (deref h c)) (cells rows0 i)).
    + rewrite <- S_order0. apply filter_ext_in'. intros x _. rewrite AU. f_equal.
      clear -SC. induction (cells rows0 i) as [|y l IH]; [reflexivity|]. simpl. rewrite SC, IH. reflexivity.
    + clear -SC. induction (cells rows0 i) as [|y l IH]; [reflexivity|]. cbn [flat_map]. rewrite SC, IH. reflexivity.
  - intros i. rewrite Y. apply S_sty0.
  - intros m H1 H2. rewrite L. auto.
  - rewrite L. exact S_length0.
  - intros r H1 H2. rewrite L in H1. rewrite C. destruct (S_unreached0 r H1 H2) as [zs G]. exists zs. rewrite G. f_equal.
    clear -SC. induction (cells rows0 r) as [|y l IH]; [reflexivity|]. cbn [flat_map]. rewrite SC, IH. reflexivity.
  - intros Hst c r k m p H1 H2 H3. rewrite CA in *. rewrite SR in H3. apply (S_straight0 Hst c r k m p H1 H2 H3).
Qed.

(** ** From the document *)
Section Build.
Variables (mut : Styled F -> Styles F -> Styles F) (mut_sel : bytes -> Styled F -> Styles F -> Styles F).
Definition expected_cells (sty : Styles F) (xrows : list (xrow F)) (i : nat) : list (tcell F) :=
  match nth_error xrows i with
  | Some xr => map (fun kx => built mut mut_sel (rowSty_of mut mut_sel sty (List.length xrows) i xr) (List.length (xrow_cells xr)) (fst kx) (snd kx))
                 (combine (seq 0 (List.length (xrow_cells xr))) (xrow_cells xr))
  | None => []
  end.
Record Source (sty : Styles F) (xrows : list (xrow F)) h0 (rows0 : list (trow F)) : Prop := mkSource {
  O_length : List.length rows0 = List.length xrows;
  O_cells : forall i, map (deref h0) (cells rows0 i) = expected_cells sty xrows i;
  O_sty : forall i xr, nth_error xrows i = Some xr -> sty_at rows0 i = rowSty_of mut mut_sel sty (List.length xrows) i xr
}.
Lemma spanned_spec : forall sty xrows h t, spanned mut mut_sel sty xrows = (h, t) ->
  exists h0 rows0, t_sty t = sty /\ Source sty xrows h0 rows0 /\ Spanned h0 rows0 h (t_rows t) (t_columnCount t).
Proof.
  intros sty xrows h t E. unfold spanned, buildTable in E.
  destruct (build_rows mut mut_sel sty (List.length xrows) 0 xrows empty_heap) as [h0 rows0] eqn:Eb.
  destruct (build_rows_spec _ _ _ _ _ _ _ _ _ Eb) as (B1 & B2 & B3 & B4 & B5). change (h_next empty_heap) with 0 in *. 
  assert (Src : Source sty xrows h0 rows0).
  { constructor; [exact B4| |].
    - intros i. unfold expected_cells. destruct (nth_error xrows i) as [xr|] eqn:En.
      + destruct (B5 i xr En) as (row & R1 & R2 & R3 & R4). rewrite (cells_nth _ _ _ R1), R4, R2. reflexivity.
      + rewrite cells_beyond; [reflexivity|]. rewrite B4. apply nth_error_None. exact En.
    - intros i xr En. destruct (B5 i xr En) as (row & R1 & R2 & R3 & R4). unfold sty_at. rewrite R1. exact R2. }
  exists h0, rows0.
  assert (Hfresh : forall c, In c (flat_map r_cells rows0) -> c < h_next h0 /\ fresh_cell (deref h0 c)).
  { intros c Hc. split; [rewrite B1; rewrite B2 in Hc; apply in_seq in Hc; exact (proj2 Hc)|].
    apply flat_in_cells in Hc as [i Hi]. apply (in_map (deref h0)) in Hi. rewrite (O_cells _ _ _ _ Src) in Hi.
    unfold expected_cells in Hi. destruct (nth_error xrows i); [|contradiction]. apply in_map_iff in Hi as ([k [st cs rs iss]] & G & _).
    rewrite <- G. repeat split. }
  destruct (processSpans_spec (mkTable sty rows0 0) h0 h t) as [P1 P2]; [cbn [t_rows]; rewrite B2; apply seq_NoDup|exact Hfresh|exact E|].
  split; [exact P1|]. split; [exact Src|exact P2].
Qed.
End Build.

(** ** Column widths *)
Definition cw h c : F := ColumnWidth (c_sty (deref h c)).
Definition column rows (j : nat) : list cid := flat_map (fun row => match nth_error (r_cells row) j with Some c => [c] | None => [] end) rows.
Definition larger h (w : F) c : F := if w <? cw h c then cw h c else w.

Lemma max_widths_spec : forall h l cws, List.length l = List.length cws ->
  exists r, max_widths h l cws = Some r /\ List.length r = List.length cws /\
    forall j w, nth_error cws j = Some w -> exists c, nth_error l j = Some c /\ nth_error r j = Some (larger h w c).
Proof.
  intros h. induction l as [|c l IH]; intros [|w cws] H; try discriminate H.
  - exists []. repeat split. intros [|j] w H'; discriminate H'.
  - injection H as H. destruct (IH cws H) as (r & R1 & R2 & R3). cbn [max_widths]. rewrite R1. eexists. split; [reflexivity|].
    split; [simpl; congruence|]. intros [|j] w' Hj; [injection Hj as <-; exists c; split; reflexivity|apply R3; exact Hj].
Qed.
Lemma max_widths_rows_spec : forall h rows cws, (forall row, In row rows -> List.length (r_cells row) = List.length cws) ->
  exists r, max_widths_rows h rows cws = Some r /\ List.length r = List.length cws /\
    forall j w, nth_error cws j = Some w -> nth_error r j = Some (fold_left (larger h) (column rows j) w).
Proof.
  intros h. induction rows as [|row rows IH]; intros cws H.
  - exists cws. repeat split. intros j w Hj. exact Hj.
  - destruct (max_widths_spec h (r_cells row) cws (H row (or_introl eq_refl))) as (r & R1 & R2 & R3).
    destruct (IH r) as (r' & I1 & I2 & I3); [intros x Hx; rewrite R2; apply H; right; exact Hx|].
    exists r'. cbn [max_widths_rows]. rewrite R1. split; [exact I1|]. split; [congruence|].
    intros j w Hj. destruct (R3 j w Hj) as (c & C1 & C2). rewrite (I3 j _ C2). unfold column. cbn [flat_map]. rewrite C1. reflexivity.
Qed.
Lemma sized_with_width : forall h c (w : F), sized h (update c (with_width w) h).
Proof. intros. apply sized_update. reflexivity. Qed.
Lemma set_widths_spec : forall l cws h, NoDup l -> List.length l = List.length cws ->
  exists h', set_widths l cws h = Some h' /\ sized h h' /\ (forall c, ~ In c l -> deref h' c = deref h c) /\
    forall j c w, nth_error l j = Some c -> nth_error cws j = Some w -> deref h' c = with_width w (deref h c).
Proof.
  induction l as [|c l IH]; intros [|w cws] h ND H; try discriminate H.
  - exists h. split; [reflexivity|]. split; [apply sized_refl|]. split; [reflexivity|]. intros [|j] c w Hj; discriminate Hj.
  - injection H as H. inversion ND; subst. destruct (IH cws (update c (with_width w) h)) as (h' & I1 & I2 & I3 & I4); [assumption|exact H|].
    exists h'. split; [exact I1|]. split; [eapply sized_trans; [apply sized_with_width|exact I2]|]. split.
    + intros x Hx. simpl in Hx. rewrite I3 by tauto. apply deref_update_ne. intuition.
    + intros [|j] x v Hj Hv.
      * injection Hj as <-. injection Hv as <-. rewrite I3 by assumption. apply deref_update_eq.
      * rewrite (I4 j x v Hj Hv). rewrite deref_update_ne; [reflexivity|]. intros ->. simpl in Hj. apply nth_error_In in Hj. contradiction.
Qed.
Lemma set_widths_rows_spec : forall rows cws h, NoDup (flat_map r_cells rows) -> (forall row, In row rows -> List.length (r_cells row) = List.length cws) ->
  exists h', set_widths_rows rows cws h = Some h' /\ sized h h' /\ (forall c, ~ In c (flat_map r_cells rows) -> deref h' c = deref h c) /\
    forall i j c w, cell_at rows i j = Some c -> nth_error cws j = Some w -> deref h' c = with_width w (deref h c).
Proof.
  induction rows as [|row rows IH]; intros cws h ND H.
  - exists h. split; [reflexivity|]. split; [apply sized_refl|]. split; [reflexivity|]. intros i j c w Hj. unfold cell_at, cells in Hj. destruct i, j; discriminate Hj.
  - cbn [flat_map] in *. apply NoDup_app_iff in ND as (N1 & N2 & N3).
    destruct (set_widths_spec (r_cells row) cws h N1 (H row (or_introl eq_refl))) as (h1 & A1 & A2 & A3 & A4).
    destruct (IH cws h1 N2) as (h' & I1 & I2 & I3 & I4); [intros x Hx; apply H; right; exact Hx|].
    exists h'. cbn [set_widths_rows]. rewrite A1. split; [exact I1|]. split; [eapply sized_trans; eassumption|]. split.
    + intros c Hc. rewrite in_app_iff in Hc. rewrite I3 by tauto. apply A3. tauto.
    + intros [|i] j c w Hj Hw.
      * rewrite I3; [apply (A4 j c w Hj Hw)|]. apply N3. exact (nth_error_In _ _ Hj).
      * assert (Hj' : cell_at rows i j = Some c) by exact Hj. rewrite (I4 i j c w Hj' Hw). rewrite A3; [reflexivity|].
        intro G. apply (N3 c G). apply (in_cells_flat rows i). exact (nth_error_In _ _ Hj').
Qed.

Definition widths h (rows : list (trow F)) (cols : nat) (width : F) : list F :=
  let req := map (fun j => fold_left (larger h) (column rows j) zero) (seq 0 cols) in
  let '(used, n) := space_used req zero 0%Z in
  if (0 <? n)%Z then map (fun w => if w =? zero then (width - used) / of_Z n else w) req else req.

Lemma nth_error_ext : forall A (l l' : list A), (forall j, nth_error l j = nth_error l' j) -> l = l'.
Proof.
  intros A. induction l as [|x l IH]; intros [|y l'] H; [reflexivity|discriminate (H 0)|discriminate (H 0)|].
  assert (G := H 0). injection G as ->. f_equal. apply IH. intro j. exact (H (S j)).
Qed.
Lemma assignColumnWidths_spec : forall t h width, NoDup (flat_map r_cells (t_rows t)) ->
  (forall i, (i < List.length (t_rows t))%nat -> List.length (cells (t_rows t) i) = t_columnCount t) ->
  exists h', assignColumnWidths t width h = Some h' /\ sized h h' /\
    forall i j c w, cell_at (t_rows t) i j = Some c -> nth_error (widths h (t_rows t) (t_columnCount t) width) j = Some w ->
      deref h' c = with_width w (deref h c).
Proof.
  intros t h width ND Hr. unfold assignColumnWidths.
  assert (Hrow : forall row, In row (t_rows t) -> List.length (r_cells row) = t_columnCount t).
  { intros row Hin. apply In_nth_error in Hin as [i Hi]. rewrite <- (cells_nth _ _ _ Hi). apply Hr. apply nth_error_Some. congruence. }
  destruct (max_widths_rows_spec h (t_rows t) (repeat zero (t_columnCount t))) as (req & R1 & R2 & R3).
  { intros row Hin. rewrite repeat_length. apply Hrow. exact Hin. }
  rewrite R1. rewrite repeat_length in R2.
  assert (Hreq : req = map (fun j => fold_left (larger h) (column (t_rows t) j) zero) (seq 0 (t_columnCount t))).
  { apply nth_error_ext. intro j. rewrite nth_error_map. destruct (Nat.lt_ge_cases j (t_columnCount t)) as [Hj|Hj].
    - rewrite (R3 j zero) by (apply nth_error_repeat; exact Hj).
      rewrite (nth_error_nth' (seq 0 (t_columnCount t)) 0) by (rewrite seq_length; exact Hj). rewrite seq_nth by exact Hj. reflexivity.
    - rewrite (proj2 (nth_error_None req j)) by lia. rewrite (proj2 (nth_error_None (seq 0 (t_columnCount t)) j)) by (rewrite seq_length; exact Hj). reflexivity. }
  unfold widths. rewrite <- Hreq. clear Hreq R1 R3.
  destruct (space_used req zero 0) as [used n].
  set (cws := if (0 <? n)%Z then map (fun w => if w =? zero then (width - used) / of_Z n else w) req else req).
  assert (Lc : List.length cws = t_columnCount t) by (unfold cws; destruct (0 <? n)%Z; [rewrite map_length|]; exact R2).
  destruct (set_widths_rows_spec (t_rows t) cws h ND) as (h' & S1 & S2 & _ & S4).
  { intros row Hin. rewrite Lc. apply Hrow. exact Hin. }
  exists h'. split; [exact S1|]. split; [exact S2|]. exact S4.
Qed.
Lemma widths_length : forall h rows cols width, List.length (widths h rows cols width) = cols.
Proof.
  intros. unfold widths. destruct (space_used _ _ _) as [u n]. destruct (0 <? n)%Z; rewrite ?map_length; apply seq_length.
Qed.
End Width.
