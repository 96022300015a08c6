(** Column widths in binary64 (C37, C38). *)
From Coq Require Import ZArith Reals Lia Lra Psatz Floats.SpecFloat.
From Flocq Require Import Core.Core.
From Verif Require Import GoStr Num Style Class Instr Engine Layout Grid Table Lines Proc EngineFacts TableView TableFacts SpanFacts NormFacts WidthFacts TableMain FloatSpec FloatBase FloatRel.
From Coq Require Import Rdefinitions.
Local Open Scope R_scope.

Section Columns.
Context (h : heap NumF64).
Definition wf (c : cid) : R := fval (ColumnWidth (c_sty (deref h c))).
Definition sane (c : cid) : Prop := moderate (ColumnWidth (c_sty (deref h c))).
Lemma larger_float : forall l (w : NumF64), (forall c, In c l -> sane c) -> moderate w ->
  let r := fold_left (larger (F:=NumF64) h) l w in
  moderate r /\ fval w <= fval r /\ (forall c, In c l -> wf c <= fval r) /\ (r = w \/ fval w < fval r /\ exists c, In c l /\ wf c = fval r).
Proof.
  induction l as [|c l IH]; intros w Hl Hw r; subst r.
  - cbn [fold_left]. split; [exact Hw|]. split; [lra|]. split; [intros ? []|left; reflexivity].
  - cbn [fold_left]. assert (Sc := Hl c (or_introl eq_refl)). assert (Hl' : forall c, In c l -> sane c) by (intros x Hx; apply Hl; right; exact Hx).
    change (larger (F:=NumF64) h w c) with (if ltb w (ColumnWidth (c_sty (deref h c))) then ColumnWidth (c_sty (deref h c)) else w).
    rewrite (ltb_ok _ _ (proj1 Hw) (proj1 Sc)). fold (wf c). destruct (Rlt_bool_spec (fval w) (wf c)) as [E|E].
    + destruct (IH _ Hl' Sc) as (M & A & B & C). set (r := fold_left (larger (F:=NumF64) h) l (ColumnWidth (c_sty (deref h c)))) in *. fold (wf c) in A, C. split; [exact M|]. split; [lra|]. split.
      * intros c' [<-|H']; [exact A|exact (B c' H')].
      * right. destruct C as [C|[C (c' & C1 & C2)]]; [split; [rewrite C; exact E|]; exists c; split; [left; reflexivity|rewrite C; reflexivity]|].
        split; [lra|]. exists c'. split; [right; exact C1|exact C2].
    + destruct (IH w Hl' Hw) as (M & A & B & C). set (r := fold_left (larger (F:=NumF64) h) l w) in *. split; [exact M|]. split; [exact A|]. split.
      * intros c' [<-|H']; [lra|exact (B c' H')].
      * destruct C as [C|[C (c' & C1 & C2)]]; [left; exact C|right]. split; [exact C|]. exists c'. split; [right; exact C1|exact C2].
Qed.
End Columns.

(** The widths asked for: finite and not negative. *)
Definition asked (r : NumF64) : Prop := moderate r /\ 0 <= fval r.
Lemma sum_nonneg : forall l, (forall r, In r l -> 0 <= r) -> 0 <= sumR l.
Proof. induction l as [|r l IH]; intros H; cbn; [lra|]. fold (sumR l). assert (0 <= r) by (apply H; left; reflexivity). assert (0 <= sumR l) by (apply IH; intros; apply H; right; assumption). lra. Qed.
Lemma space_float : forall (l : list NumF64) (used : NumF64) n S (k : nat), (forall r, In r l -> asked r) -> fin used -> 0 <= S -> Rabs (fval used - S) <= 2 * INR k * u * S ->
  (Z.of_nat (k + List.length l) <= 2 ^ 20)%Z -> S <= INR k * 2 ^ 200 ->
  let '(used', n') := space_used (F:=NumF64) l used n in
  fin used' /\ Rabs (fval used' - (S + sumR (map fval l))) <= 2 * INR (k + List.length l) * u * (S + sumR (map fval l)) /\
  n' = (n + Z.of_nat (free_columns_f (map fval l)))%Z.
Proof.
  destruct zero_ok as [Z1 Z2]. assert (U := u_small).
  induction l as [|r l IH]; intros used n S k Hl Fu HS HE Hk Hb.
  - cbn [space_used map sumR fold_right List.length]. rewrite Nat.add_0_r, Rplus_0_r. split; [exact Fu|]. split; [exact HE|]. cbn. lia.
  - destruct (Hl r (or_introl eq_refl)) as [[Fr Br] Pr]. assert (Hl' : forall x, In x l -> asked x) by (intros x Hx; apply Hl; right; exact Hx).
    cbn [space_used]. rewrite (ltb_ok zero r Z1 Fr), Z2. cbn [map sumR fold_right]. fold (sumR (map fval l)). unfold free_columns_f. cbn [filter]. cbn [List.length] in Hk.
    assert (Bk : INR k <= 1048576) by (rewrite INR_IZR_INZ; apply IZR_le; lia). assert (Pk := pos_INR k). rewrite (Rabs_pos_eq _ Pr) in Br.
    destruct (Rlt_bool_spec 0 (fval r)) as [P|P].
    + replace (Req_bool (fval r) 0) with false by (symmetry; apply Req_bool_false; lra). fold (free_columns_f (map fval l)).
      assert (HU : Rabs (fval used) <= 2 * S). { replace (fval used) with ((fval used - S) + S) by ring. eapply Rle_trans; [apply Rabs_triang|]. rewrite (Rabs_pos_eq S) by exact HS. assert (2 * INR k * u <= 1) by nra. replace (2 * INR k * u * S) with ((2 * INR k * u) * S) in HE by ring. assert (2 * INR k * u * S <= 1 * S) by (apply Rmult_le_compat_r; assumption). lra. }
      assert (P200 := pow2_pos 200). assert (Big : 2 * (1048577 * 2 ^ 200) <= 2 ^ 1000).
      { replace 1000%nat with (200 + 800)%nat by reflexivity. rewrite pow_add. assert (2 ^ 40 <= 2 ^ 800) by (apply Rle_pow; [lra|lia]). assert (2 * 1048577 <= 2 ^ 40) by (simpl; lra). nra. }
      assert (HS2 : S <= 1048576 * 2 ^ 200) by (eapply Rle_trans; [exact Hb|]; apply Rmult_le_compat_r; lra).
      destruct (add_err used r Fu Fr) as (Fa & e & He & Ee).
      { eapply Rle_trans; [apply Rabs_triang|]. rewrite (Rabs_pos_eq (fval r)) by exact Pr. lra. }
      specialize (IH (add used r) n (S + fval r) (Datatypes.S k) Hl' Fa ltac:(lra)).
      destruct (space_used (F:=NumF64) l (add used r) n) as [used' n']. replace (S + (fval r + sumR (map fval l))) with (S + fval r + sumR (map fval l)) by ring. replace (k + List.length (r :: l))%nat with (Datatypes.S k + List.length l)%nat by (cbn; lia).
      apply IH; [|lia|rewrite S_INR; nra].
      rewrite Ee. replace ((fval used + fval r) * (1 + e) - (S + fval r)) with ((fval used - S) * (1 + e) + (S + fval r) * e) by ring.
      eapply Rle_trans; [apply Rabs_triang|]. rewrite !Rabs_mult. rewrite (Rabs_pos_eq (S + fval r)) by lra.
      assert (Rabs (1 + e) <= 1 + u). { eapply Rle_trans; [apply Rabs_triang|]. rewrite Rabs_R1. lra. }
      assert (Rabs (fval used - S) * Rabs (1 + e) <= (2 * INR k * u * S) * (1 + u)) by (apply Rmult_le_compat; try apply Rabs_pos; assumption).
      assert ((S + fval r) * Rabs e <= (S + fval r) * u) by (apply Rmult_le_compat_l; lra). rewrite S_INR.
      assert (2 * INR k * u * S * (1 + u) <= 2 * INR k * u * (S + fval r) + u * (S + fval r)); [|nra].
      assert (2 * INR k * u <= 1) by nra. assert (0 <= INR k * u) by (apply Rmult_le_pos; lra). assert (2 * INR k * u * S * u <= 1 * (S * u)) by (replace (2 * INR k * u * S * u) with (2 * INR k * u * (S * u)) by ring; apply Rmult_le_compat_r; [apply Rmult_le_pos; lra|assumption]).
      assert (INR k * u * S <= INR k * u * (S + fval r)) by (apply Rmult_le_compat_l; lra). nra.
    + assert (E : fval r = 0) by lra. rewrite E. rewrite (Req_bool_true 0 0) by reflexivity. cbn [List.length]. fold (free_columns_f (map fval l)).
      specialize (IH used (n + 1)%Z S k Hl' Fu HS HE ltac:(lia) Hb). destruct (space_used (F:=NumF64) l used (n + 1)) as [used' n']. destruct IH as (I1 & I2 & I3). split; [exact I1|]. rewrite Rplus_0_l. split; [|rewrite I3; lia].
      eapply Rle_trans; [exact I2|]. apply Rmult_le_compat_r; [assert (0 <= sumR (map fval l)); [apply sum_nonneg; intros x Hx; apply in_map_iff in Hx as (y & <- & Hy); exact (proj2 (Hl' y Hy))|lra]|].
      apply Rmult_le_compat_r; [lra|]. apply Rmult_le_compat_l; [lra|]. apply le_INR. cbn [List.length]. lia.
Qed.

Lemma in_column_f : forall (rows : list (trow NumF64)) j c, In c (column rows j) <-> exists i, cell_at rows i j = Some c.
Proof.
  intros rows j c. unfold column, cell_at, cells. rewrite in_flat_map. split.
  - intros (row & Hr & Hc). apply In_nth_error in Hr as [i Hi]. exists i. rewrite Hi. destruct (nth_error (r_cells row) j); [|destruct Hc]. destruct Hc as [->|[]]. reflexivity.
  - intros [i Hi]. destruct (nth_error rows i) as [row|] eqn:En; [|destruct j; discriminate Hi]. exists row. split; [exact (nth_error_In _ _ En)|].
    unfold cid in *. rewrite Hi. left. reflexivity.
Qed.
Lemma column_cells : forall (rows : list (trow NumF64)) j c, In c (column rows j) -> In c (flat_map r_cells rows).
Proof.
  intros rows j c H. unfold column in H. apply in_flat_map in H as (row & Hr & Hc). apply in_flat_map. exists row. split; [exact Hr|].
  destruct (nth_error (r_cells row) j) as [c'|] eqn:E; [|destruct Hc]. destruct Hc as [<-|[]]. exact (nth_error_In _ _ E).
Qed.
Definition reqs_f (h : heap NumF64) (rows : list (trow NumF64)) (cols : nat) : list NumF64 :=
  map (fun j => fold_left (larger (F:=NumF64) h) (column rows j) zero) (seq 0 cols).
Lemma zero_moderate : moderate (zero : NumF64).
Proof. destruct zero_ok as [A B]. split; [exact A|]. rewrite B, Rabs_R0. apply Rlt_le, pow2_pos. Qed.
Section Reqs.
Context (h : heap NumF64) (rows : list (trow NumF64)) (cols : nat).
Hypothesis Hs : forall c, In c (flat_map r_cells rows) -> sane h c.
Lemma reqs_f_len : List.length (reqs_f h rows cols) = cols.
Proof. unfold reqs_f. rewrite map_length, seq_length. reflexivity. Qed.
Lemma reqs_f_spec : forall j r, nth_error (reqs_f h rows cols) j = Some r -> asked r /\ requested_f h rows j (fval r).
Proof.
  intros j r Hj. unfold reqs_f in Hj.
  rewrite nth_error_map in Hj. destruct (nth_error (seq 0 cols) j) as [k|] eqn:Ek; [|discriminate Hj].
  assert (Hlt : (j < cols)%nat) by (rewrite <- (seq_length cols 0); apply nth_error_Some; congruence).
  rewrite (nth_error_nth' _ 0%nat) in Ek by (rewrite seq_length; exact Hlt). rewrite seq_nth in Ek by exact Hlt.
  injection Ek as Ek. simpl in Ek. subst k. cbv beta iota delta [option_map] in Hj.
  assert (Hj' : fold_left (larger (F:=NumF64) h) (column rows j) (zero : NumF64) = r) by congruence. clear Hj.
  destruct (larger_float h (column rows j) zero (fun c Hc => Hs c (column_cells _ _ _ Hc)) zero_moderate) as (M & A & B & C).
  rewrite Hj' in M, A, B, C. rewrite (proj2 zero_ok) in A, C. split; [split; assumption|]. split.
  - intros i c Hc. apply B. apply in_column_f. eauto.
  - destruct C as [C|[C (c & C1 & C2)]]; [right; rewrite C; exact (proj2 zero_ok)|left]. split; [exact C|]. apply in_column_f in C1 as [i Hi]. exists i, c. split; [exact Hi|exact C2].
Qed.
Lemma reqs_f_asked : forall r, In r (reqs_f h rows cols) -> asked r.
Proof. intros r H. apply In_nth_error in H as [j Hj]. exact (proj1 (reqs_f_spec j r Hj)). Qed.
End Reqs.
Lemma requested_unique : forall h rows j r r', requested_f h rows j r -> requested_f h rows j r' -> r = r'.
Proof.
  intros h rows j r r' [A B] [A' B']. cbv zeta in *.
  destruct B as [[P (i & c & Hc & E)]|E], B' as [[P' (i' & c' & Hc' & E')]|E'].
  - assert (G := A' i c Hc). assert (G' := A i' c' Hc'). lra.
  - assert (G := A' i c Hc). lra.
  - assert (G := A i' c' Hc'). lra.
  - lra.
Qed.
Lemma sum_bound : forall l, (forall r, In r l -> asked r) -> sumR (map fval l) <= INR (List.length l) * 2 ^ 200.
Proof.
  induction l as [|r l IH]; intros H; cbn [map sumR fold_right List.length]; [cbn; lra|]. fold (sumR (map fval l)). rewrite S_INR.
  destruct (H r (or_introl eq_refl)) as [[_ B] P]. rewrite (Rabs_pos_eq _ P) in B. assert (G := IH (fun x Hx => H x (or_intror Hx))). lra.
Qed.

(** What a column without request gets. *)
Lemma free_float : forall (l : list NumF64) (W : NumF64), (forall r, In r l -> asked r) -> moderate W -> (Z.of_nat (List.length l) <= 2 ^ 20)%Z ->
  (0 < free_columns_f (map fval l))%nat ->
  let '(used, n) := space_used (F:=NumF64) l zero 0 in
  n = Z.of_nat (free_columns_f (map fval l)) /\ fin (div (sub W used) (of_Z n)) /\
  Rabs (INR (free_columns_f (map fval l)) * fval (div (sub W used) (of_Z n)) - (fval W - sumR (map fval l))) <= column_error (fval W) (map fval l).
Proof.
  intros l W Hl [FW BW] Hn Hf. assert (U := u_small). destruct zero_ok as [Z1 Z2].
  assert (G := space_float l zero 0 0 0 Hl Z1 (Rle_refl 0)). rewrite Z2 in G. rewrite Rminus_0_r, Rabs_R0, Rmult_0_r in G. specialize (G (Rle_refl 0) Hn). cbn [INR] in G. rewrite Rmult_0_l in G. specialize (G (Rle_refl 0)).
  destruct (space_used (F:=NumF64) l zero 0) as [used n]. rewrite Rplus_0_l, Nat.add_0_l, Z.add_0_l in G. destruct G as (Fu & Eu & En). split; [exact En|].
  set (S := sumR (map fval l)) in *. set (m := List.length l) in *. set (k := free_columns_f (map fval l)) in *.
  assert (PS : 0 <= S) by (apply sum_nonneg; intros r Hr; apply in_map_iff in Hr as (y & <- & Hy); exact (proj2 (Hl y Hy))).
  assert (Bm : INR m <= 1048576) by (rewrite INR_IZR_INZ; apply IZR_le; exact Hn). assert (Pm := pos_INR m).
  assert (HS : S <= 1048576 * 2 ^ 200). { assert (P200 := pow2_pos 200). eapply Rle_trans; [apply sum_bound; exact Hl|]. apply Rmult_le_compat_r; [lra|exact Bm]. }
  assert (HU : Rabs (fval used) <= 2 * S).
  { replace (fval used) with ((fval used - S) + S) by ring. eapply Rle_trans; [apply Rabs_triang|]. rewrite (Rabs_pos_eq S) by exact PS. assert (2 * INR m * u <= 1) by nra. assert (2 * INR m * u * S <= 1 * S) by (apply Rmult_le_compat_r; assumption). lra. }
  assert (Kb : (k <= m)%nat). { unfold k, m, free_columns_f. rewrite <- (map_length fval l). generalize (map fval l). induction l0 as [|r l0 IH]; cbn [filter List.length]; [lia|]. destruct (Req_bool r 0); cbn [List.length]; lia. }
  assert (Kp : 1 <= INR k) by (replace 1 with (INR 1) by reflexivity; apply le_INR; exact Hf).
  assert (Km : INR k <= 1048576) by (eapply Rle_trans; [apply le_INR; exact Kb|exact Bm]).
  destruct (of_Z_ok n) as [Fn Vn]; [subst n; rewrite Z.abs_eq by lia; lia|]. rewrite En in Vn. rewrite <- INR_IZR_INZ in Vn. rewrite <- En in Vn.
  assert (P200 := pow2_pos 200). assert (Big : 2 * (2 * (1048577 * 2 ^ 200)) <= 2 ^ 1000).
  { replace 1000%nat with (200 + 800)%nat by reflexivity. rewrite pow_add. assert (2 ^ 40 <= 2 ^ 800) by (apply Rle_pow; [lra|lia]). assert (2 * (2 * 1048577) <= 2 ^ 40) by (simpl; lra). nra. }
  assert (HD : Rabs (fval W - fval used) <= Rabs (fval W) + 2 * S) by (unfold Rminus; eapply Rle_trans; [apply Rabs_triang|]; rewrite Rabs_Ropp; lra).
  destruct (sub_err W used FW Fu) as (Fs & e1 & He1 & Es); [lra|].
  assert (H1 : Rabs (1 + e1) <= 1 + u) by (eapply Rle_trans; [apply Rabs_triang|]; rewrite Rabs_R1; lra).
  assert (Bs : Rabs (fval (sub W used)) <= 2 * (Rabs (fval W) + 2 * S)).
  { rewrite Es, Rabs_mult, Rmult_comm. apply Rmult_le_compat; try apply Rabs_pos; lra. }
  assert (Nn : fval (of_Z n : NumF64) <> 0) by (rewrite Vn; lra).
  destruct (div_err (sub W used) (of_Z n) Fs Fn Nn) as (Fd & e2 & t & He2 & Ht & Ed).
  { rewrite Vn. unfold Rdiv. rewrite Rabs_mult. assert (0 < / INR k) by (apply Rinv_0_lt_compat; lra). rewrite (Rabs_pos_eq (/ INR k)) by lra. assert (/ INR k <= 1) by (rewrite <- Rinv_1; apply Rinv_le_contravar; lra). assert (Q := Rabs_pos (fval (sub W used))). nra. }
  split; [exact Fd|]. rewrite Ed, Vn, Es. set (D := fval W - fval used) in *.
  replace (INR k * (D * (1 + e1) / INR k * (1 + e2) + t) - (fval W - S)) with ((S - fval used) + D * (e1 + e2 + e1 * e2) + INR k * t) by (unfold D; field; lra).
  eapply Rle_trans; [apply Rabs_triang|]. eapply Rle_trans; [apply Rplus_le_compat_r, Rabs_triang|]. rewrite !Rabs_mult. rewrite (Rabs_pos_eq (INR k)) by lra.
  rewrite Rabs_minus_sym in Eu.
  assert (He : Rabs (e1 + e2 + e1 * e2) <= 3 * u).
  { eapply Rle_trans; [apply Rabs_triang|]. eapply Rle_trans; [apply Rplus_le_compat_r, Rabs_triang|]. rewrite Rabs_mult. assert (Rabs e1 * Rabs e2 <= u * 1) by (apply Rmult_le_compat; try apply Rabs_pos; lra). lra. }
  assert (HDe : Rabs D * Rabs (e1 + e2 + e1 * e2) <= (Rabs (fval W) + 2 * S) * (3 * u)) by (apply Rmult_le_compat; try apply Rabs_pos; assumption).
  assert (Ht' : INR k * Rabs t <= / 2 ^ 1000).
  { assert (INR k * Rabs t <= 2 ^ 20 * eta) by (apply Rmult_le_compat; [lra|apply Rabs_pos|simpl; lra|exact Ht]). eapply Rle_trans; [exact H|]. rewrite eta_val. replace 1075%nat with (75 + 1000)%nat by reflexivity. rewrite pow_add, Rinv_mult. assert (0 < / 2 ^ 1000) by (apply Rinv_0_lt_compat, pow2_pos).
    assert (2 ^ 20 * / 2 ^ 75 <= 1). { apply (Rmult_le_reg_r (2 ^ 75)); [apply pow2_pos|]. rewrite Rmult_assoc, Rinv_l by (apply pow_nonzero; lra). rewrite Rmult_1_r, Rmult_1_l. apply Rle_pow; [lra|lia]. } rewrite <- Rmult_assoc. nra. }
  unfold column_error. rewrite map_length. fold m S. replace (/ 2 ^ 52) with (2 * u) by (rewrite u_val; replace (2 ^ 53) with (2 * 2 ^ 52) by (cbn [pow]; ring); rewrite Rinv_mult; field; apply pow_nonzero; lra).
  assert (QW := Rabs_pos (fval W)). assert (0 <= INR m * u) by (apply Rmult_le_pos; lra).
  replace ((INR m + 3) * (2 * u) * (Rabs (fval W) + S)) with (2 * INR m * u * S + 2 * (INR m * u * Rabs (fval W)) + 6 * (u * Rabs (fval W)) + 6 * (u * S)) by ring.
  assert (0 <= INR m * u * Rabs (fval W)) by (apply Rmult_le_pos; assumption). assert (0 <= u * Rabs (fval W)) by (apply Rmult_le_pos; lra). lra.
Qed.

Section Thms.
Context (env : Env NumF64) {eng : Engine NumF64}.
Variables (st : Styled NumF64) (xrows : list (xrow NumF64)) (s s' : PS NumF64 eng) (h : heap NumF64) (t : table NumF64).
Hypothesis HT : transformTable env st xrows s = (Some (h, t), s').
Hypothesis Hc : forall c, In c (flat_map r_cells (t_rows t)) -> moderate (ColumnWidth (c_sty (deref h c))).
Hypothesis Hw : moderate (Width (SDim (t_sty t))).
Hypothesis Hp : moderate (printable_width s).
Hypothesis Hn : (Z.of_nat (t_columnCount t) <= 2 ^ 20)%Z.
Local Notation tw := (table_width_f (Width (SDim (t_sty t))) s).
Lemma tw_float : full_width t s = tw /\ moderate tw.
Proof.
  unfold printable_width in Hp. unfold full_width, table_width_f, page_now, sbind, query, sret. destruct (printableArea (ps_eng s)) as [[[x0 y0] x1] y1]. cbn [fst pg_area pa_x0 pa_x1 page_effective_width].
  unfold page_effective_width. cbn [pg_area pa_x0 pa_x1].
  rewrite (ltb_ok (Width (SDim (t_sty t))) zero (proj1 Hw) (proj1 zero_ok)), (ltb_ok (sub x1 x0) (Width (SDim (t_sty t))) (proj1 Hp) (proj1 Hw)), (leb_ok zero (Width (SDim (t_sty t))) (proj1 zero_ok) (proj1 Hw)), (leb_ok (Width (SDim (t_sty t))) (sub x1 x0) (proj1 Hw) (proj1 Hp)).
  rewrite (proj2 zero_ok).
  destruct (Rlt_bool_spec (fval (Width (SDim (t_sty t)))) 0), (Rle_bool_spec 0 (fval (Width (SDim (t_sty t))))); try lra; cbn [orb andb]; [split; [reflexivity|exact Hp]|].
  destruct (Rlt_bool_spec (fval (sub x1 x0)) (fval (Width (SDim (t_sty t))))), (Rle_bool_spec (fval (Width (SDim (t_sty t)))) (fval (sub x1 x0))); try lra; split; try reflexivity; assumption.
Qed.
Local Notation req := (reqs_f h (t_rows t) (t_columnCount t)).
Lemma widths_float : forall j r, nth_error req j = Some r ->
  exists w, nth_error (widths h (t_rows t) (t_columnCount t) tw) j = Some w /\ fin w /\ (0 < fval r -> fval w = fval r) /\
  (fval r = 0 -> Rabs (INR (free_columns_f (map fval req)) * fval w - (fval tw - sumR (map fval req))) <= column_error (fval tw) (map fval req)).
Proof.
  intros j r Hj. destruct (reqs_f_spec h (t_rows t) (t_columnCount t) Hc j r Hj) as [[[Fr Br] Pr] Rq].
  assert (A := reqs_f_asked h (t_rows t) (t_columnCount t) Hc). assert (L := reqs_f_len h (t_rows t) (t_columnCount t)). set (rq := req) in *.
  unfold widths. fold rq. change (map (fun j : nat => fold_left (larger (F:=NumF64) h) (column (t_rows t) j) zero) (seq 0 (t_columnCount t))) with rq.
  assert (Hl : (Z.of_nat (List.length rq) <= 2 ^ 20)%Z) by (rewrite L; exact Hn).
  destruct (Nat.eq_dec (free_columns_f (map fval rq)) 0) as [E|E].
  - assert (Nr : fval r <> 0).
    { intro K. assert (In (fval r) (filter (fun r => Req_bool r 0) (map fval rq))) by (apply filter_In; split; [apply in_map; exact (nth_error_In _ _ Hj)|rewrite K; apply Req_bool_true; reflexivity]).
      unfold free_columns_f in E. destruct (filter _ _); [destruct H|discriminate E]. }
    assert (G := space_float rq zero 0 0 0 A (proj1 zero_ok) (Rle_refl 0)). rewrite (proj2 zero_ok), Rminus_0_r, Rabs_R0, Rmult_0_r in G. specialize (G (Rle_refl 0) Hl). cbn [INR] in G. rewrite Rmult_0_l in G. specialize (G (Rle_refl 0)).
    destruct (space_used (F:=NumF64) rq zero 0) as [used n]. destruct G as (_ & _ & G). rewrite E in G. subst n. cbn [Z.add Z.of_nat Z.ltb Z.compare].
    exists r. split; [exact Hj|]. split; [exact Fr|]. split; [reflexivity|]. intro K. contradiction.
  - assert (G := free_float rq tw A (proj2 tw_float) Hl (proj1 (Nat.neq_0_lt_0 _) E)).
    destruct (space_used (F:=NumF64) rq zero 0) as [used n]. destruct G as (G1 & G2 & G3). replace (0 <? n)%Z with true by (symmetry; apply Z.ltb_lt; lia).
    eexists. split; [exact (map_nth_error _ j _ Hj)|]. rewrite (eqb_ok r zero Fr (proj1 zero_ok)), (proj2 zero_ok).
    destruct (Req_bool_spec (fval r) 0) as [K|K].
    + split; [exact G2|]. split; [intro; lra|intros _; exact G3].
    + split; [exact Fr|]. split; [reflexivity|]. intro; contradiction.
Qed.
Lemma req_eq : forall rq : list R, List.length rq = t_columnCount t -> (forall j r, nth_error rq j = Some r -> requested_f h (t_rows t) j r) -> rq = map fval req.
Proof.
  intros rq L H. apply nth_error_ext. intro j. rewrite nth_error_map. destruct (nth_error rq j) as [r|] eqn:E.
  - assert (j < t_columnCount t)%nat by (rewrite <- L; apply nth_error_Some; congruence).
    destruct (nth_error req j) as [r'|] eqn:E'; [|apply nth_error_None in E'; rewrite reqs_f_len in E'; lia].
    cbn. f_equal. exact (requested_unique _ _ _ _ _ (H j r E) (proj2 (reqs_f_spec h (t_rows t) (t_columnCount t) Hc j r' E'))).
  - apply nth_error_None in E. destruct (nth_error req j) eqn:E'; [|reflexivity]. assert (j < List.length req)%nat by (apply nth_error_Some; congruence). rewrite reqs_f_len in H0. lia.
Qed.
Lemma column_widths_float : exists rq : list R, List.length rq = t_columnCount t /\
  forall j r, nth_error rq j = Some r -> requested_f h (t_rows t) j r /\
    exists w : NumF64, fin w /\ (0 < r -> fval w = r) /\
      (r = 0 -> Rabs (INR (free_columns_f rq) * fval w - (fval tw - sumR rq)) <= column_error (fval tw) rq) /\
      forall i c, cell_at (t_rows t) i j = Some c -> c_width (deref h c) = w.
Proof.
  destruct (transform_spec env st xrows s _ _ HT) as (h1 & t1 & h0 & rows0 & E & _ & Src & Sp & Wd & _). injection E as <- <-. rewrite (proj1 tw_float) in Wd.
  exists (map fval req). split; [rewrite map_length; apply reqs_f_len|]. intros j r Hj. rewrite nth_error_map in Hj. destruct (nth_error req j) as [r'|] eqn:E; [|discriminate Hj]. injection Hj as <-.
  split; [exact (proj2 (reqs_f_spec h (t_rows t) (t_columnCount t) Hc j r' E))|]. destruct (widths_float j r' E) as (w & W1 & W2 & W3 & W4). exists w. split; [exact W2|]. split; [exact W3|]. split; [exact W4|].
  intros i c Hi. exact (Wd i j c w Hi W1).
Qed.
Lemma sum_fill_f : forall (d : R) l ws, List.length ws = List.length l -> (forall r, In r l -> 0 <= r) ->
  (forall j r w, nth_error l j = Some r -> nth_error ws j = Some w -> (0 < r -> w = r) /\ (r = 0 -> w = d)) ->
  sumR ws = sumR l + INR (free_columns_f l) * d.
Proof.
  intros d. induction l as [|r l IH]; intros [|w ws] Hl Hg H; try discriminate Hl.
  - cbn. ring.
  - cbn [sumR fold_right]. fold (sumR ws) (sumR l). rewrite IH; [|injection Hl as Hl; exact Hl|intros x Hx; apply Hg; right; exact Hx|intros j; exact (H (S j))].
    destruct (H 0%nat r w eq_refl eq_refl) as [H1 H2]. unfold free_columns_f at 2. cbn [filter]. assert (G := Hg r (or_introl eq_refl)). destruct (Req_bool_spec r 0) as [K|K].
    + cbn [List.length]. fold (free_columns_f l). rewrite (H2 K), S_INR, K. ring.
    + fold (free_columns_f l). rewrite H1 by lra. ring.
Qed.
Lemma fills_float : forall rq : list R, List.length rq = t_columnCount t -> (forall j r, nth_error rq j = Some r -> requested_f h (t_rows t) j r) ->
  forall i, (i < List.length (t_rows t))%nat ->
  (exists j, (j < t_columnCount t)%nat /\ forall i' c, cell_at (t_rows t) i' j = Some c -> fval (ColumnWidth (c_sty (deref h c))) <= 0) ->
  Rabs (sumR (map (fun c => fval (c_width (deref h c))) (cells (t_rows t) i)) - fval tw) <= column_error (fval tw) rq.
Proof.
  intros rq Hrq1 Hrq2 i Hi (j0 & Hj0 & Hfree). rewrite (req_eq rq Hrq1 Hrq2). clear rq Hrq1 Hrq2.
  destruct (transform_spec env st xrows s _ _ HT) as (h1 & t1 & h0 & rows0 & E & _ & Src & Sp & Wd & _). injection E as <- <-. rewrite (proj1 tw_float) in Wd.
  assert (L := reqs_f_len h (t_rows t) (t_columnCount t)).
  destruct (nth_error req j0) as [r0|] eqn:Er; [|apply nth_error_None in Er; lia].
  destruct (reqs_f_spec h (t_rows t) (t_columnCount t) Hc j0 r0 Er) as [_ [_ [[G (i' & c & G1 & G2)]|G]]]; [exfalso; specialize (Hfree i' c G1); rewrite G2 in Hfree; lra|].
  destruct (widths_float j0 r0 Er) as (w0 & W1 & W2 & _ & W4). specialize (W4 G).
  rewrite (sum_fill_f (fval w0) (map fval req)).
  - replace (sumR (map fval req) + INR (free_columns_f (map fval req)) * fval w0 - fval tw) with (INR (free_columns_f (map fval req)) * fval w0 - (fval tw - sumR (map fval req))) by ring. exact W4.
  - rewrite !map_length, L. exact (S_rect _ _ _ _ _ Sp i Hi).
  - intros r Hr. apply in_map_iff in Hr as (y & <- & Hy). exact (proj2 (reqs_f_asked h (t_rows t) (t_columnCount t) Hc y Hy)).
  - intros j r w Hr Hw'. rewrite nth_error_map in Hw'. destruct (nth_error (cells (t_rows t) i) j) as [c|] eqn:Ec; [|discriminate Hw'].
    injection Hw' as <-. rewrite nth_error_map in Hr. destruct (nth_error req j) as [r'|] eqn:Er'; [|discriminate Hr]. injection Hr as <-.
    destruct (widths_float j r' Er') as (w & V1 & V2 & V3 & V4). rewrite (Wd i j c w Ec V1). split; [exact V3|].
    intro K. unfold widths in W1, V1. change (map (fun j : nat => fold_left (larger (F:=NumF64) h) (column (t_rows t) j) zero) (seq 0 (t_columnCount t))) with req in W1, V1.
    destruct (space_used (F:=NumF64) req zero 0) as [used n]. destruct (0 <? n)%Z.
    + rewrite (map_nth_error _ j _ Er') in V1. rewrite (map_nth_error _ j0 _ Er) in W1. injection V1 as V1. injection W1 as W1. rewrite <- V1, <- W1.
      destruct (reqs_f_spec h (t_rows t) (t_columnCount t) Hc j r' Er') as [[[F1 _] _] _]. destruct (reqs_f_spec h (t_rows t) (t_columnCount t) Hc j0 r0 Er) as [[[F2 _] _] _].
      change (SFeqb r' (S754_zero false)) with (eqb r' (zero : NumF64)). change (SFeqb r0 (S754_zero false)) with (eqb r0 (zero : NumF64)). rewrite (eqb_ok r' zero F1 (proj1 zero_ok)), (eqb_ok r0 zero F2 (proj1 zero_ok)), (proj2 zero_ok), K, G, (Req_bool_true 0 0) by reflexivity. reflexivity.
    + rewrite Er' in V1. rewrite Er in W1. injection V1 as V1. injection W1 as W1. rewrite <- V1, <- W1, K, G. reflexivity.
Qed.
Lemma nonneg_float : forall rq : list R, List.length rq = t_columnCount t -> (forall j r, nth_error rq j = Some r -> requested_f h (t_rows t) j r) ->
  sumR rq <= fval tw -> forall i j c, cell_at (t_rows t) i j = Some c -> - column_error (fval tw) rq <= fval (c_width (deref h c)).
Proof.
  intros rq Hrq1 Hrq2 Hs i j c Hc'.
  assert (Hj : (j < t_columnCount t)%nat).
  { destruct (transform_spec env st xrows s _ _ HT) as (h1 & t1 & h0 & rows0 & E & _ & Src & Sp & _). injection E as <- <-.
    assert (Hi : (i < List.length (t_rows t))%nat).
    { apply nth_error_Some. intro K. unfold cell_at, cells in Hc'. rewrite K in Hc'. destruct j; discriminate Hc'. }
    rewrite <- (S_rect _ _ _ _ _ Sp i Hi). apply nth_error_Some. unfold cell_at in Hc'. congruence. }
  destruct column_widths_float as (rq' & L & Hcw).
  assert (E : rq' = rq).
  { apply nth_error_ext. intro k. destruct (nth_error rq' k) as [r'|] eqn:E1, (nth_error rq k) as [r|] eqn:E2; try reflexivity.
    - f_equal. apply (requested_unique h (t_rows t) k); [exact (proj1 (Hcw k r' E1))|exact (Hrq2 k r E2)].
    - apply nth_error_None in E2. assert (nth_error rq' k <> None) by congruence. apply nth_error_Some in H. lia.
    - apply nth_error_None in E1. assert (nth_error rq k <> None) by congruence. apply nth_error_Some in H. lia. }
  subst rq'. destruct (nth_error rq j) as [r|] eqn:Er; [|apply nth_error_None in Er; lia].
  destruct (Hcw j r Er) as ([_ R2] & w & _ & W1 & W2 & W3). rewrite (W3 i c Hc').
  assert (P : forall x, In x rq -> 0 <= x).
  { intros x Hx. apply In_nth_error in Hx as [k Hk]. destruct (Hcw k x Hk) as ([_ [[K _]| ->]] & _); lra. }
  assert (CE : 0 <= column_error (fval tw) rq).
  { unfold column_error. assert (A := pos_INR (List.length rq)). assert (B := sum_nonneg rq P). assert (C := Rabs_pos (fval tw)).
    assert (D := Rinv_0_lt_compat _ (pow2_pos 52)). assert (E := Rinv_0_lt_compat _ (pow2_pos 1000)).
    assert (0 <= (INR (List.length rq) + 3) * / 2 ^ 52 * (Rabs (fval tw) + sumR rq)) by (apply Rmult_le_pos; [apply Rmult_le_pos|]; lra). lra. }
  destruct R2 as [[R2 _]|R2]; [rewrite (W1 R2); lra|]. specialize (W2 R2).
  assert (Fc : (1 <= free_columns_f rq)%nat).
  { unfold free_columns_f. assert (K : In r (filter (fun r => Req_bool r 0) rq)) by (apply filter_In; split; [exact (nth_error_In _ _ Er)|rewrite R2; apply Req_bool_true; reflexivity]).
    destruct (filter _ rq); [destruct K|cbn; lia]. }
  assert (N : 1 <= INR (free_columns_f rq)) by (change 1 with (INR 1); apply le_INR; exact Fc).
  apply Rabs_le_inv in W2. destruct (Rle_lt_dec 0 (fval w)); [lra|]. nra.
Qed.
End Thms.
