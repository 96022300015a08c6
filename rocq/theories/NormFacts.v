(** Proofs about normalisation, and the combined facts about span processing. *)
From Coq Require Import Lia Permutation.
From Verif Require Import GoStr Num Style Class Instr Table TableView TableFacts SpanFacts.

Section Norm.
Context {F : Num}.
Implicit Types (h : heap F) (c : cid) (rows : list (trow F)).

Lemma max_cells_spec : forall rows m,
  m <= max_cells rows m /\ (forall i, List.length (cells rows i) <= max_cells rows m) /\
  (max_cells rows m = m \/ exists i, max_cells rows m = List.length (cells rows i)).
Proof.
  induction rows as [|row rows IH]; intros m.
  - simpl. repeat split; auto. intros i. unfold cells. destruct i; simpl; lia.
  - cbn [max_cells]. set (m' := if m <? List.length (r_cells row) then List.length (r_cells row) else m).
    assert (Hm : m <= m' /\ List.length (r_cells row) <= m').
    { unfold m'. destruct (Nat.ltb_spec m (List.length (r_cells row))); unfold cid in *; lia. }
    destruct (IH m') as (I1 & I2 & I3). split; [lia|]. split.
    + intros [|i]; [unfold cells; simpl; unfold cid in *; lia|apply I2].
    + destruct I3 as [I3|[i I3]]; [|right; exists (S i); exact I3].
      rewrite I3. unfold m'. destruct (Nat.ltb_spec m (List.length (r_cells row))); [right; exists 0; reflexivity|left; reflexivity].
Qed.

Lemma pad_rows_spec : forall n rows h h' rows', NoDup (flat_map r_cells rows) -> (forall c, In c (flat_map r_cells rows) -> c < h_next h) ->
  pad_rows n rows h = (h', rows') ->
  h_next h <= h_next h' /\ (forall c, c < h_next h -> deref h' c = deref h c) /\
  List.length rows' = List.length rows /\ (forall i, sty_at rows' i = sty_at rows i) /\
  (forall i, i < List.length rows -> exists zs, cells rows' i = cells rows i ++ zs /\ List.length zs = n - List.length (cells rows i) /\
     (forall z, In z zs -> h_next h <= z < h_next h' /\ deref h' z = zero_cell)) /\
  NoDup (flat_map r_cells rows') /\
  (forall c, In c (flat_map r_cells rows') -> In c (flat_map r_cells rows) \/ h_next h <= c < h_next h').
Proof.
  intros n. induction rows as [|row rows IH]; intros h h' rows' ND Hb E.
  - injection E as <- <-. simpl. repeat split; auto. intros i Hi. lia.
  - cbn [pad_rows] in E. unfold pad_cells in E.
    destruct (zero_cells (n - List.length (r_cells row)) h) as [h1 zs] eqn:Ez.
    destruct (pad_rows n rows h1) as [h2 rest] eqn:E2. injection E as <- <-.
    destruct (zero_cells_spec _ _ _ _ Ez) as (Z1 & Z2 & Z3 & Z4).
    cbn [flat_map] in *. apply NoDup_app_iff in ND as (ND1 & ND2 & ND3).
    assert (Hz : forall z, In z zs -> h_next h <= z < h_next h1).
    { intros z Hz. rewrite Z2 in Hz. apply in_seq in Hz. lia. }
    assert (Hb1 : forall c, In c (r_cells row) -> c < h_next h) by (intros; apply Hb; apply in_or_app; auto).
    assert (Hb2 : forall c, In c (flat_map r_cells rows) -> c < h_next h) by (intros; apply Hb; apply in_or_app; auto).
    destruct (IH h1 h2 rest ND2) as (I1 & I2 & I3 & I4 & I5 & I6 & I7); [intros c Hc; specialize (Hb2 c Hc); lia|exact E2|].
    split; [lia|]. split; [intros c Hc; rewrite I2 by lia; apply Z3; exact Hc|]. split; [simpl; lia|].
    split; [intros [|i]; [reflexivity|apply (I4 i)]|]. split.
    { intros [|i] Hi.
      - exists zs. split; [reflexivity|]. split; [rewrite Z2, seq_length; reflexivity|].
        intros z H. specialize (Hz z H). split; [lia|]. rewrite I2 by lia. apply Z4. exact H.
      - simpl in Hi. destruct (I5 i) as (zs' & J1 & J2 & J3); [lia|]. exists zs'. split; [exact J1|]. split; [exact J2|].
        intros z H. destruct (J3 z H). split; [lia|assumption]. }
    cbn [r_cells with_cells]. split.
    { apply NoDup_app_iff. split; [apply NoDup_app_iff; split; [exact ND1|]; split; [rewrite Z2; apply seq_NoDup|]|split; [exact I6|]].
      - intros x Hx G. specialize (Hz x G). specialize (Hb1 x Hx). lia.
      - intros x Hx G. apply I7 in G. apply in_app_or in Hx. destruct Hx as [Hx|Hx], G as [G|G].
        + exact (ND3 x Hx G).
        + specialize (Hb1 x Hx). lia.
        + specialize (Hz x Hx). specialize (Hb2 x G). lia.
        + specialize (Hz x Hx). lia. }
    intros x Hx. rewrite in_app_iff. apply in_app_or in Hx. destruct Hx as [Hx|Hx].
    + apply in_app_or in Hx. destruct Hx as [Hx|Hx]; [tauto|]. specialize (Hz x Hx). right. lia.
    + apply I7 in Hx. destruct Hx as [Hx|Hx]; [tauto|right; lia].
Qed.

Lemma index_cells_spec : forall ir l ic h, NoDup l ->
  h_next (index_cells ir ic l h) = h_next h /\
  (forall c, ~ In c l -> deref (index_cells ir ic l h) c = deref h c) /\
  (forall k c, nth_error l k = Some c -> deref (index_cells ir ic l h) c = with_idx ir (ic + k) (deref h c)).
Proof.
  intros ir. induction l as [|c l IH]; intros ic h ND.
  - simpl. repeat split; auto. intros [|k] c H; discriminate H.
  - inversion ND; subst. cbn [index_cells]. destruct (IH (S ic) (update c (with_idx ir ic) h)) as (I1 & I2 & I3); [assumption|].
    split; [rewrite I1; reflexivity|]. split.
    + intros x Hx. simpl in Hx. rewrite I2 by tauto. apply deref_update_ne. intuition.
    + intros [|k] x Hk.
      * injection Hk as <-. rewrite I2 by assumption. rewrite deref_update_eq, Nat.add_0_r. reflexivity.
      * simpl in Hk. rewrite (I3 k x Hk). assert (x <> c) by (intros ->; apply nth_error_In in Hk; contradiction).
        rewrite deref_update_ne by assumption. f_equal. lia.
Qed.
Lemma index_rows_spec : forall rows ir h, NoDup (flat_map r_cells rows) ->
  h_next (index_rows ir rows h) = h_next h /\
  (forall c, ~ In c (flat_map r_cells rows) -> deref (index_rows ir rows h) c = deref h c) /\
  (forall i k c, cell_at rows i k = Some c -> deref (index_rows ir rows h) c = with_idx (ir + i) k (deref h c)).
Proof.
  induction rows as [|row rows IH]; intros ir h ND.
  - simpl. repeat split; auto. intros i k c H. unfold cell_at, cells in H. destruct i, k; discriminate H.
  - cbn [flat_map index_rows] in *. apply NoDup_app_iff in ND as (N1 & N2 & N3).
    destruct (index_cells_spec ir (r_cells row) 0 h N1) as (A1 & A2 & A3).
    destruct (IH (S ir) (index_cells ir 0 (r_cells row) h) N2) as (I1 & I2 & I3).
    split; [congruence|]. split.
    + intros c Hc. rewrite in_app_iff in Hc. rewrite I2 by tauto. apply A2. tauto.
    + intros [|i] k c Hk.
      * rewrite Nat.add_0_r. assert (Hin := nth_error_In _ _ Hk). rewrite I2 by (apply N3; exact Hin). apply (A3 k c Hk).
      * assert (Hk' : cell_at rows i k = Some c) by exact Hk. rewrite (I3 i k c Hk').
        rewrite A2; [f_equal; lia|]. intro G. apply (N3 c G). apply (in_cells_flat rows i). exact (nth_error_In _ _ Hk').
Qed.

(** ** Everything about span processing *)
(** A cell without its position and size. *)
Definition unidx (x : tcell F) : tcell F := with_idx 0 0 (with_width zero (with_height zero (with_minHeight zero x))).
Record Spanned (h0 : heap F) (rows0 : list (trow F)) (h : heap F) (rows : list (trow F)) (cols : nat) : Prop := mkSpanned {
  S_rect : forall i, i < List.length rows -> List.length (cells rows i) = cols;
  S_idx : forall i j c, cell_at rows i j = Some c -> c_rowIdx (deref h c) = i /\ c_cellIdx (deref h c) = j;
  S_tight : cols = 0 \/ exists i c, cell_at rows i (cols - 1) = Some c /\ c_zero (deref h c) = false;
  S_nodup : NoDup (flat_map r_cells rows);
  S_bound : forall c, In c (flat_map r_cells rows) -> c < h_next h;
  S_authored : forall i, filter (authored h) (cells rows i) = cells rows0 i;
  S_content : forall i c, In c (cells rows0 i) -> unidx (deref h c) =
    with_spansRows (c_spansRows (deref h c)) (with_spansCols (c_spansCols (deref h c)) (deref h0 c));
  S_cols : forall i c, In c (cells rows0 i) -> List.length (c_spansCols (deref h c)) = Z.to_nat (c_colSpan (deref h0 c) - 1) /\
    NoDup (c_spansCols (deref h c)) /\
    forall p, In p (c_spansCols (deref h c)) -> In p (cells rows i) /\ unidx (deref h p) = spanned_cell c (c_rowSpan (deref h0 c));
  S_rows : forall i c, In c (cells rows0 i) -> List.length (c_spansRows (deref h c)) = Z.to_nat (c_rowSpan (deref h0 c) - 1) /\
    forall n p, nth_error (c_spansRows (deref h c)) n = Some p -> In p (cells rows (i + 1 + n)) /\ unidx (deref h p) = spanned_cell c 0%Z;
  S_others : forall i p, In p (cells rows i) -> authored h p = false -> unidx (deref h p) = zero_cell \/
    exists c, (In c (cells rows0 i) /\ In p (c_spansCols (deref h c))) \/
              (exists r n, In c (cells rows0 r) /\ nth_error (c_spansRows (deref h c)) n = Some p /\ i = r + 1 + n);
  S_order : forall i, filter (fun p => authored h p || existsb (fun c => existsb (Nat.eqb p) (c_spansCols (deref h c))) (cells rows0 i)) (cells rows i)
    = flat_map (fun c => c :: c_spansCols (deref h c)) (cells rows0 i);
  S_sty : forall i, sty_at rows i = sty_at rows0 i;
  S_least : forall m, List.length rows0 <= m -> (forall r c, In c (cells rows0 r) -> r + 1 + Z.to_nat (c_rowSpan (deref h0 c) - 1) <= m) ->
    List.length rows <= m;
  S_length : List.length rows0 <= List.length rows;
  (* a row that no row span reaches is the row the author wrote, then filling *)
  S_unreached : forall r, r < List.length rows -> (forall r0 c, In c (cells rows0 r0) -> r0 < r -> r0 + Z.to_nat (c_rowSpan (deref h0 c)) <= r) ->
    exists zs, cells rows r = flat_map (fun c => c :: c_spansCols (deref h c)) (cells rows0 r) ++ zs;
  (* without staggered row spans they go straight down *)
  S_straight : (forall r r' c c', In c (cells rows0 r) -> In c' (cells rows0 r') ->
      (1 < c_rowSpan (deref h0 c))%Z -> (1 < c_rowSpan (deref h0 c'))%Z -> r < r' -> r + Z.to_nat (c_rowSpan (deref h0 c)) <= r') ->
    forall c r k m p, In c (cells rows0 r) -> cell_at rows r k = Some c -> nth_error (c_spansRows (deref h c)) m = Some p ->
    cell_at rows (r + 1 + m) k = Some p
}.

(** A cell as the author left it. *)
Definition fresh_cell (x : tcell F) : Prop :=
  c_spannedBy x = None /\ c_zero x = false /\ c_spansCols x = [] /\ c_spansRows x = [] /\ unidx x = x.

Lemma filter_all : forall A (f : A -> bool) l, (forall x, In x l -> f x = true) -> filter f l = l.
Proof. induction l as [|x l IH]; intros H; [reflexivity|]. simpl. rewrite H by (left; reflexivity). rewrite IH; [reflexivity|]. intros; apply H; right; assumption. Qed.
Lemma filter_none : forall A (f : A -> bool) l, (forall x, In x l -> f x = false) -> filter f l = [].
Proof. induction l as [|x l IH]; intros H; [reflexivity|]. simpl. rewrite H by (left; reflexivity). apply IH. intros; apply H; right; assumption. Qed.
Lemma filter_ext_in' : forall A (f g : A -> bool) l, (forall x, In x l -> f x = g x) -> filter f l = filter g l.
Proof. induction l as [|x l IH]; intros H; [reflexivity|]. simpl. rewrite H by (left; reflexivity). rewrite IH; [reflexivity|]. intros; apply H; right; assumption. Qed.
Lemma filter_filter : forall A (f g : A -> bool) l, filter f (filter g l) = filter (fun x => g x && f x) l.
Proof. induction l as [|x l IH]; [reflexivity|]. simpl. destruct (g x); simpl; [destruct (f x); rewrite IH; reflexivity|exact IH]. Qed.


Definition authoredx (x : tcell F) : bool := match c_spannedBy x with Some _ => false | None => negb (c_zero x) end.
Lemma authored_unidx : forall h c, authored h c = authoredx (unidx (deref h c)).
Proof. reflexivity. Qed.
Lemma cell_at_length : forall rows i j c, cell_at rows i j = Some c -> i < List.length rows /\ j < List.length (cells rows i).
Proof.
  intros rows i j c H. split; [|apply nth_error_Some; unfold cell_at in H; congruence].
  destruct (Nat.lt_ge_cases i (List.length rows)) as [|G]; [assumption|]. unfold cell_at in H. rewrite cells_beyond in H by exact G. destruct j; discriminate H.
Qed.
Lemma in_cells_length : forall rows i c, In c (cells rows i) -> i < List.length rows.
Proof. intros rows i c H. apply In_nth_error in H as [j Hj]. apply (cell_at_length rows i j c Hj). Qed.

Lemma processSpans_spec : forall t h0 h3 t3,
  NoDup (flat_map r_cells (t_rows t)) -> (forall c, In c (flat_map r_cells (t_rows t)) -> c < h_next h0 /\ fresh_cell (deref h0 c)) ->
  processSpans t h0 = (h3, t3) ->
  t_sty t3 = t_sty t /\ Spanned h0 (t_rows t) h3 (t_rows t3) (t_columnCount t3).
Proof.
  intros t h0 h3 t3 ND Hf E. unfold processSpans in E. set (rows0 := t_rows t) in *.
  destruct (processColumnSpans rows0 h0) as [h1 rows1] eqn:E1.
  destruct (processRowSpans rows1 h1) as [h2 rows2] eqn:E2.
  unfold normalize in E. cbn [t_rows t_sty] in E. set (n := max_cells rows2 0) in *.
  destruct (pad_rows n rows2 h2) as [hp rows3] eqn:E3. injection E as Eh Et. subst h3 t3. cbn [t_rows t_columnCount t_sty].
  split; [reflexivity|].
  (* phase 1 *)
  destruct (processColumnSpans_spec rows0 h0 h1 rows1 ND) as (A1 & A2 & A3 & A4 & A5 & A6); [|exact E1|].
  { intros c Hc. destruct (Hf c Hc) as (G1 & G2 & G3 & G4 & G5). auto. }
  assert (C1 : forall i, cells rows1 i = flat_map (group h1) (cells rows0 i)).
  { intro i. rewrite A4. unfold cells. rewrite nth_error_map. destruct (nth_error rows0 i); reflexivity. }
  assert (Y1 : forall i, sty_at rows1 i = sty_at rows0 i).
  { intro i. rewrite A4. unfold sty_at. rewrite nth_error_map. destruct (nth_error rows0 i); reflexivity. }
  assert (L1 : List.length rows1 = List.length rows0) by (rewrite A4; apply map_length).
  assert (In0 : forall i c, In c (cells rows0 i) -> In c (flat_map r_cells rows0)) by (intros i c; apply in_cells_flat).
  assert (B1 : forall c, In c (flat_map r_cells rows1) -> c < h_next h1).
  { intros c Hc. apply A6 in Hc. destruct Hc as [Hc|Hc]; [apply Hf in Hc; lia|lia]. }
  assert (In1 : forall i c, In c (cells rows1 i) -> exists c0, In c0 (cells rows0 i) /\ (c = c0 \/ In c (c_spansCols (deref h1 c0)))).
  { intros i c Hc. rewrite C1 in Hc. apply in_flat_map in Hc as (c0 & G1 & [G2|G2]); exists c0; auto. }
  assert (Old1 : forall c, In c (flat_map r_cells rows0) -> authored h1 c = true /\ c_rowSpan (deref h1 c) = c_rowSpan (deref h0 c) /\ c_spansRows (deref h1 c) = [] /\ c_zero (deref h1 c) = false).
  { intros c Hc. destruct (A3 c Hc) as (G1 & _ & _). destruct (Hf c Hc) as (_ & F1 & F2 & F3 & F4 & _).
    unfold authored. rewrite G1. cbn. rewrite F1, F2, F4. auto. }
  assert (Ph1 : forall c p, In c (flat_map r_cells rows0) -> In p (c_spansCols (deref h1 c)) -> h_next h0 <= p < h_next h1 /\ deref h1 p = spanned_cell c (c_rowSpan (deref h0 c))).
  { intros c p Hc Hp. apply (A3 c Hc). exact Hp. }
  (* phase 2 *)
  assert (NR1 : forall c, In c (flat_map r_cells rows1) -> c_spansRows (deref h1 c) = []).
  { intros c Hc. apply flat_in_cells in Hc as [i Hc]. apply In1 in Hc as (c0 & G1 & [->|G2]); [apply Old1; exact (In0 _ _ G1)|].
    destruct (Ph1 c0 c (In0 _ _ G1) G2) as [_ ->]. reflexivity. }
  assert (NZ1 : forall c, In c (flat_map r_cells rows1) -> c_zero (deref h1 c) = false).
  { intros c Hc. apply flat_in_cells in Hc as [i Hc]. apply In1 in Hc as (c0 & G1 & [->|G2]); [apply Old1; exact (In0 _ _ G1)|].
    destruct (Ph1 c0 c (In0 _ _ G1) G2) as [_ ->]. reflexivity. }
  destruct (processRowSpans_spec h1 rows1 A5 B1 NR1 NZ1 h2 rows2 E2) as (HJ & HW & HB).
  destruct (processRowSpans_K h1 rows1 A5 B1 NR1 NZ1 h2 rows2 E2) as (HK1 & HK2).
  assert (Wanted0 : forall c, In c (flat_map r_cells rows0) -> wanted h1 c = Z.to_nat (c_rowSpan (deref h0 c) - 1)).
  { intros c Hc. destruct (Old1 c Hc) as (G1 & G2 & _). unfold wanted, active, rs1. rewrite G1, G2, andb_true_r.
    destruct (Z.leb_spec (c_rowSpan (deref h0 c)) 1); simpl; lia. }
  assert (WantedP : forall c p, In c (flat_map r_cells rows0) -> In p (c_spansCols (deref h1 c)) -> wanted h1 p = 0).
  { intros c p Hc Hp. destruct (Ph1 c p Hc Hp) as [_ G]. unfold wanted, active, authored. rewrite G. simpl. rewrite andb_false_r. reflexivity. }
  (* phase 3 *)
  destruct (pad_rows_spec n rows2 h2 hp rows3 (J_nodup _ _ _ _ HJ) (J_bound _ _ _ _ HJ) E3) as (P1 & P2 & P3 & P4 & P5 & P6 & P7).
  destruct (index_rows_spec rows3 0 hp P6) as (X1 & X2 & X3).
  set (h := index_rows 0 rows3 hp) in *.
  destruct (max_cells_spec rows2 0) as (M1 & M2 & M3). fold n in M1, M2, M3.
  assert (HN := J_next _ _ _ _ HJ).
  assert (DU : forall c, unidx (deref h c) = unidx (deref hp c)).
  { intro c. destruct (in_dec Nat.eq_dec c (flat_map r_cells rows3)) as [Hin|Hin]; [|rewrite X2 by exact Hin; reflexivity].
    apply flat_in_cells in Hin as [i Hi]. apply In_nth_error in Hi as [k Hk]. rewrite (X3 i k c Hk). reflexivity. }
  assert (D2 : forall c, c < h_next h2 -> unidx (deref h c) = unidx (deref h2 c)) by (intros c Hc; rewrite DU, P2 by exact Hc; reflexivity).
  assert (In2 : forall i c, In c (cells rows2 i) -> c < h_next h2) by (intros i c Hc; apply (J_bound _ _ _ _ HJ); exact (in_cells_flat _ _ _ Hc)).
  assert (In3 : forall i c, In c (cells rows3 i) -> In c (cells rows2 i) \/ (h_next h2 <= c /\ unidx (deref h c) = zero_cell)).
  { intros i c Hc. assert (Hi := in_cells_length _ _ _ Hc). rewrite P3 in Hi. destruct (P5 i Hi) as (zs & G1 & _ & G3).
    rewrite G1 in Hc. apply in_app_or in Hc. destruct Hc as [Hc|Hc]; [left; exact Hc|right]. destruct (G3 c Hc) as [G4 G5].
    split; [lia|]. rewrite DU, G5. reflexivity. }
  assert (In23 : forall i c, In c (cells rows2 i) -> In c (cells rows3 i)).
  { intros i c Hc. assert (Hi := in_cells_length _ _ _ Hc). destruct (P5 i Hi) as (zs & G1 & _). rewrite G1. apply in_or_app. left. exact Hc. }
  assert (In12 : forall i c, In c (cells rows1 i) -> In c (cells rows2 i)) by (intros i c Hc; apply (J_in_old _ _ _ _ _ _ HJ Hc)).
  assert (In01 : forall i c, In c (cells rows0 i) -> In c (cells rows1 i)).
  { intros i c Hc. rewrite C1. apply in_flat_map. exists c. split; [exact Hc|left; reflexivity]. }
  (* the author's cells *)
  assert (Dold : forall i c, In c (cells rows1 i) -> unidx (deref h c) = with_spansRows (c_spansRows (deref h c)) (unidx (deref h1 c))).
  { intros i c Hc. assert (Hlt := B1 c (in_cells_flat _ _ _ Hc)).
    assert (G := D2 c ltac:(lia)). rewrite (J_deref _ _ _ _ HJ c Hlt) in G.
    assert (G' : c_spansRows (deref h c) = c_spansRows (deref h2 c)).
    { change (c_spansRows (unidx (deref h c)) = c_spansRows (deref h2 c)). rewrite G. reflexivity. }
    rewrite G, G'. reflexivity. }
  assert (SR : forall c, c < h_next h2 -> c_spansRows (deref h c) = c_spansRows (deref h2 c)).
  { intros c Hc. change (c_spansRows (unidx (deref h c)) = c_spansRows (unidx (deref h2 c))). rewrite D2 by exact Hc. reflexivity. }
  assert (SC : forall i c, In c (cells rows1 i) -> c_spansCols (deref h c) = c_spansCols (deref h1 c)).
  { intros i c Hc. change (c_spansCols (unidx (deref h c)) = c_spansCols (deref h1 c)). rewrite (Dold i c Hc). reflexivity. }
  assert (Au0 : forall i c, In c (cells rows0 i) -> authored h c = true).
  { intros i c Hc. rewrite authored_unidx, (Dold i c (In01 _ _ Hc)). destruct (Old1 c (In0 _ _ Hc)) as [G _]. rewrite authored_unidx in G. exact G. }
  assert (AuP : forall i c p, In c (cells rows0 i) -> In p (c_spansCols (deref h1 c)) -> authored h p = false /\ In p (cells rows1 i)).
  { intros i c p Hc Hp. assert (G : In p (cells rows1 i)) by (rewrite C1; apply in_flat_map; exists c; split; [exact Hc|right; exact Hp]).
    split; [|exact G]. rewrite authored_unidx, (Dold i p G). destruct (Ph1 c p (In0 _ _ Hc) Hp) as [_ ->]. reflexivity. }
  assert (AuN : forall i p, In p (cells rows2 i) -> h_next h1 <= p -> authored h p = false).
  { intros i p Hp Hge. rewrite authored_unidx, D2 by (exact (In2 i p Hp)).
    destruct (J_new _ _ _ _ HJ i p Hp Hge) as [->|(c & _ & -> & _)]; reflexivity. }
  assert (AuZ : forall p, unidx (deref h p) = zero_cell -> authored h p = false) by (intros p G; rewrite authored_unidx, G; reflexivity).
  assert (Inv1 : forall i p, In p (cells rows2 i) -> p < h_next h1 -> In p (cells rows1 i)) by (intros i p; apply J_old_in with (h := h2); exact HJ).
  assert (Rest : forall (f : cid -> bool) i, (forall p, In p (cells rows3 i) -> ~ In p (cells rows1 i) -> f p = false) ->
    filter f (cells rows3 i) = filter f (cells rows1 i)).
  { intros f i Hfz. destruct (Nat.lt_ge_cases i (List.length rows2)) as [Hi|Hi].
    - destruct (P5 i Hi) as (zs & G1 & _ & G3). rewrite G1, filter_app.
      rewrite (filter_none _ f zs).
      2:{ intros z Hz. apply Hfz; [rewrite G1; apply in_or_app; right; exact Hz|]. intro G. specialize (G3 z Hz). apply In12 in G. apply In2 in G. lia. }
      rewrite app_nil_r. rewrite <- (J_old _ _ _ _ HJ i). rewrite filter_filter. apply filter_ext_in'.
      intros x Hx. destruct (Nat.ltb_spec x (h_next h1)); [reflexivity|]. simpl. apply Hfz; [apply In23; exact Hx|].
      intro G. apply in_cells_flat in G. apply B1 in G. lia.
    - rewrite (cells_beyond rows3) by lia. rewrite (cells_beyond rows1); [reflexivity|]. assert (G := J_length _ _ _ _ HJ). lia. }
  constructor.
  - intros i Hi. rewrite P3 in Hi. destruct (P5 i Hi) as (zs & G1 & G2 & _). rewrite G1, app_length, G2.
    assert (G := M2 i). unfold cid in *. lia.
  - intros i j c Hc. rewrite (X3 i j c Hc). split; reflexivity.
  - destruct M3 as [M3|[i M3]]; [left; exact M3|].
    destruct (J_last _ _ _ _ HJ i) as [G|(l & x & G1 & G2)]; [left; rewrite M3, G; reflexivity|right].
    exists i, x. assert (Hx : In x (cells rows2 i)) by (rewrite G1; apply in_or_app; right; left; reflexivity).
    destruct (P5 i (in_cells_length _ _ _ Hx)) as (zs & Q1 & _). split.
    + unfold cell_at. rewrite Q1, G1, M3, G1, app_length, <- app_assoc. simpl. rewrite nth_error_app2 by lia.
      replace (List.length l + 1 - 1 - List.length l) with 0 by lia. reflexivity.
    + change (c_zero (unidx (deref h x)) = false). rewrite D2 by exact (In2 i x Hx). exact G2.
  - exact P6.
  - intros c Hc. rewrite X1. apply P7 in Hc. destruct Hc as [Hc|Hc]; [apply (J_bound _ _ _ _ HJ) in Hc; lia|lia].
  - intros i. rewrite Rest.
    + rewrite C1. assert (G : forall c, In c (cells rows0 i) -> In c (cells rows0 i)) by auto. revert G.
      generalize (cells rows0 i) at 1 3 4 as l. induction l as [|c l IH]; intros G; [reflexivity|].
      cbn [flat_map]. rewrite filter_app, IH by (intros; apply G; right; assumption).
      unfold group. cbn [filter]. rewrite (Au0 i c) by (apply G; left; reflexivity).
      rewrite (filter_none _ (authored h) (c_spansCols (deref h1 c))); [reflexivity|]. intros p Hp. apply (AuP i c p); [apply G; left; reflexivity|exact Hp].
    + intros p Hp Hn. apply In3 in Hp. destruct Hp as [Hp|[_ Hp]]; [|apply AuZ; exact Hp].
      apply (AuN i p Hp). destruct (Nat.lt_ge_cases p (h_next h1)) as [G|G]; [|exact G]. exfalso. apply Hn. apply Inv1; assumption.
  - intros i c Hc. rewrite (Dold i c (In01 _ _ Hc)) at 1. f_equal. destruct (A3 c (In0 _ _ Hc)) as (G & _ & _).
    rewrite (SC i c (In01 _ _ Hc)). rewrite G at 1. destruct (Hf c (In0 _ _ Hc)) as (_ & _ & _ & _ & _ & F5).
    rewrite <- F5 at 2. reflexivity.
  - intros i c Hc. rewrite (SC i c (In01 _ _ Hc)). destruct (A3 c (In0 _ _ Hc)) as (_ & G2 & G3). split; [exact G2|]. split.
    + assert (G := nodup_row rows1 i A5). rewrite C1 in G. clear -G Hc. induction (cells rows0 i) as [|x l IH]; [contradiction|].
      cbn [flat_map] in G. apply NoDup_app_iff in G as (K1 & K2 & _). destruct Hc as [->|Hc]; [unfold group in K1; inversion K1; assumption|exact (IH Hc K2)].
    + intros p Hp. destruct (AuP i c p Hc Hp) as [_ G]. split; [apply In23, In12; exact G|].
      rewrite (Dold i p G). destruct (G3 p Hp) as [_ G4].
      assert (Z : c_spansRows (deref h p) = []).
      { rewrite SR by (apply (In2 i); apply In12; exact G). assert (W := HW i p G). rewrite (WantedP c p (In0 _ _ Hc) Hp) in W.
        destruct (c_spansRows (deref h2 p)); [reflexivity|discriminate W]. }
      rewrite Z, G4. reflexivity.
  - intros i c Hc. assert (Hlt : c < h_next h2) by (apply (In2 i); apply In12, In01; exact Hc). rewrite (SR c Hlt).
    rewrite (HW i c (In01 _ _ Hc)), (Wanted0 c (In0 _ _ Hc)). split; [reflexivity|].
    intros m p Hp. destruct (J_rows _ _ _ _ HJ c m p (in_cells_flat _ _ _ (In01 _ _ Hc)) Hp) as (G1 & G2 & r & G3 & G4).
    assert (r = i) by (apply (in_two_rows rows1 r i c A5 G3 (In01 _ _ Hc))). subst r. split; [apply In23; exact G4|].
    rewrite D2 by exact (In2 _ _ G4). rewrite G2. reflexivity.
  - intros i p Hp Hau. apply In3 in Hp. destruct Hp as [Hp|[_ Hp]]; [|left; exact Hp].
    destruct (Nat.lt_ge_cases p (h_next h1)) as [Hlt|Hge].
    + right. destruct (In1 i p (Inv1 i p Hp Hlt)) as (c & G1 & [->|G2]); [rewrite (Au0 i c G1) in Hau; discriminate Hau|].
      exists c. left. split; [exact G1|]. rewrite (SC i c (In01 _ _ G1)). exact G2.
    + destruct (J_new _ _ _ _ HJ i p Hp Hge) as [G|(c & G1 & G2 & G3)].
      * left. rewrite D2 by exact (In2 i p Hp). rewrite G. reflexivity.
      * right. exists c. right. apply In_nth_error in G3 as [m Hm].
        destruct (J_rows _ _ _ _ HJ c m p G1 Hm) as (_ & _ & r & G4 & G5). exists r, m.
        assert (i = r + 1 + m) by (apply (in_two_rows rows2 i (r + 1 + m) p (J_nodup _ _ _ _ HJ) Hp G5)).
        split; [|split; [|assumption]].
        { destruct (In1 r c G4) as (c0 & K1 & [->|K2]); [exact K1|exfalso].
          assert (W := HW r c G4). rewrite (WantedP c0 c (In0 _ _ K1) K2) in W. destruct (c_spansRows (deref h2 c)); [destruct m; discriminate Hm|discriminate W]. }
        rewrite SR by (apply (In2 r); apply In12; exact G4). exact Hm.
  - intros i. rewrite Rest.
    + rewrite C1. rewrite filter_all.
      * assert (G : forall c, In c (cells rows0 i) -> In c (cells rows0 i)) by auto. revert G.
        generalize (cells rows0 i) at 1 3 4 as l. induction l as [|c l IH]; intros G; [reflexivity|]. cbn [flat_map].
        rewrite IH by (intros; apply G; right; assumption). unfold group. rewrite (SC i c); [reflexivity|]. apply In01, G. left. reflexivity.
      * intros p Hp. apply in_flat_map in Hp as (c & G1 & [<-|G2]); [rewrite (Au0 i c G1); reflexivity|].
        apply orb_true_iff. right. apply existsb_exists. exists c. split; [exact G1|]. apply existsb_exists. exists p.
        rewrite (SC i c (In01 _ _ G1)). split; [exact G2|apply Nat.eqb_refl].
    + intros p Hp Hn. apply orb_false_iff. split.
      * apply In3 in Hp. destruct Hp as [Hp|[_ Hp]]; [|apply AuZ; exact Hp].
        apply (AuN i p Hp). destruct (Nat.lt_ge_cases p (h_next h1)) as [G|G]; [|exact G]. exfalso. apply Hn. apply Inv1; assumption.
      * apply not_true_iff_false. intro G. apply existsb_exists in G as (c & G1 & G2). apply existsb_exists in G2 as (q & G3 & G4).
        apply Nat.eqb_eq in G4. subst q. rewrite (SC i c (In01 _ _ G1)) in G3. apply Hn. apply (AuP i c p G1 G3).
  - intros i. rewrite P4, (J_sty _ _ _ _ HJ), Y1. reflexivity.
  - intros m Hm1 Hm2. rewrite P3. apply HB; [lia|]. intros r c Hc. destruct (In1 r c Hc) as (c0 & K1 & [->|K2]).
    + rewrite (Wanted0 c0 (In0 _ _ K1)). apply Hm2. exact K1.
    + rewrite (WantedP c0 c (In0 _ _ K1) K2). assert (r < List.length rows1) by exact (in_cells_length _ _ _ Hc). lia.
  - rewrite P3. assert (G := J_length _ _ _ _ HJ). lia.
  - intros r Hr Hun. rewrite P3 in Hr. destruct (P5 r Hr) as (zs & G1 & _). exists zs. rewrite G1, HK1.
    + rewrite C1. f_equal. assert (G : forall c, In c (cells rows0 r) -> In c (cells rows0 r)) by auto. revert G.
      generalize (cells rows0 r) at 1 3 4 as l. induction l as [|c l IH]; intros G; [reflexivity|]. cbn [flat_map].
      rewrite IH by (intros; apply G; right; assumption). unfold group. rewrite (SC r c); [reflexivity|]. apply In01, G. left. reflexivity.
    + intros (r0 & c & K1 & K2 & K3). destruct (In1 r0 c K1) as (c0 & K4 & [->|K5]).
      * rewrite (Wanted0 c0 (In0 _ _ K4)) in K3. specialize (Hun r0 c0 K4 K2). lia.
      * rewrite (WantedP c0 c (In0 _ _ K4) K5) in K3. lia.
  - intros Hst c r k m p Hc Hk Hm.
    assert (Hst1 : straight h1 rows1).
    { intros r1 r2 c1 c2 H1 H2 Ac1 Ac2 Hlt.
      assert (Au1 : forall r' c', In c' (cells rows1 r') -> active h1 c' = true -> In c' (cells rows0 r') /\ (1 < c_rowSpan (deref h0 c'))%Z).
      { intros r' c' K1 K2. destruct (In1 r' c' K1) as (c0 & K4 & [->|K5]).
        - split; [exact K4|]. unfold active in K2. destruct (Old1 c0 (In0 _ _ K4)) as (_ & Ro & _). rewrite Ro in K2.
          apply andb_true_iff in K2 as [K2 _]. apply negb_true_iff, Z.leb_gt in K2. exact K2.
        - exfalso. unfold active, authored in K2. destruct (Ph1 c0 c' (In0 _ _ K4) K5) as [_ G]. rewrite G in K2. simpl in K2. rewrite andb_false_r in K2. discriminate K2. }
      destruct (Au1 r1 c1 H1 Ac1) as [K1 K2]. destruct (Au1 r2 c2 H2 Ac2) as [K3 K4].
      specialize (Hst r1 r2 c1 c2 K1 K3 K2 K4 Hlt). rewrite (Wanted0 c1 (In0 _ _ K1)). lia. }
    assert (Pre : forall i j x, In x (cells rows2 i) -> cell_at rows3 i j = Some x -> cell_at rows2 i j = Some x).
    { intros i j x Hx Hj. apply In_nth_error in Hx as [j' Hj'].
      assert (Hj3 : cell_at rows3 i j' = Some x).
      { destruct (P5 i (in_cells_length _ _ _ (nth_error_In _ _ Hj'))) as (zs & G1 & _). unfold cell_at. rewrite G1.
        rewrite nth_error_app1; [exact Hj'|]. apply nth_error_Some. congruence. }
      rewrite (cell_at_inj rows3 i j j' x P6 Hj Hj3). exact Hj'. }
    assert (Post : forall i j x, cell_at rows2 i j = Some x -> cell_at rows3 i j = Some x).
    { intros i j x Hj. destruct (P5 i (in_cells_length _ _ _ (nth_error_In _ _ Hj))) as (zs & G1 & _). unfold cell_at. rewrite G1.
      rewrite nth_error_app1; [exact Hj|]. apply nth_error_Some. unfold cell_at in Hj. congruence. }
    apply Post. apply (HK2 Hst1 c r k m p (In01 _ _ Hc)).
    + apply Pre; [apply In12, In01; exact Hc|exact Hk].
    + rewrite <- SR; [exact Hm|]. apply (In2 r). apply In12, In01. exact Hc.
Qed.
End Norm.
