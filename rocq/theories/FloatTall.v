(** The heights of cells in binary64 (C41). *)
From Coq Require Import ZArith Reals Lia Lra Psatz Floats.SpecFloat.
From Flocq Require Import Core.Core.
From Verif Require Import GoStr Num Style Class Instr Engine Layout Grid Table Lines Proc EngineFacts ProcView TableView TableSpec DrawSpec TableFacts SpanFacts NormFacts WidthFacts HeightFacts TableMain TableThms SizeThms AreaThms FloatSpec FloatBase FloatRel FloatTable FloatLines FloatEdges.
From Coq Require Import Rdefinitions.
Local Open Scope R_scope.

Lemma abs_mul1 : forall x e b, Rabs x <= b -> Rabs e <= u -> Rabs (x * (1 + e) - x) <= u * b.
Proof.
  intros x e b H E. replace (x * (1 + e) - x) with (e * x) by ring. rewrite Rabs_mult. apply Rmult_le_compat; try apply Rabs_pos; assumption.
Qed.
Lemma share_float : forall (a b c : NumF64) (k : nat), moderate a -> moderate b -> moderate c -> (1 <= k)%nat -> (Z.of_nat k <= 2 ^ 20)%Z ->
  let d := div (add (add a b) c) (of_Z (Z.of_nat k)) : NumF64 in
  let m := Rabs (fval a) + Rabs (fval b) + Rabs (fval c) in
  fin d /\ Rabs (INR k * fval d - (fval a + fval b + fval c)) <= 4 * u * m + INR k * eta.
Proof.
  intros a b c k [Fa Ma] [Fb Mb] [Fc Mc] K1 K2 d m. assert (U := u_small).
  assert (P : 10 * 2 ^ 200 <= 2 ^ 1000).
  { replace 1000%nat with (200 + 800)%nat by reflexivity. rewrite pow_add. assert (2 ^ 4 <= 2 ^ 800) by (apply Rle_pow; [lra|lia]). assert (Q := pow2_pos 200). assert (2 ^ 200 * 2 ^ 4 <= 2 ^ 200 * 2 ^ 800) by (apply Rmult_le_compat_l; lra). lra. }
  assert (Q := pow2_pos 200). assert (A1 := Rabs_pos (fval a)). assert (A2 := Rabs_pos (fval b)). assert (A3 := Rabs_pos (fval c)).
  assert (T1 := Rabs_triang (fval a) (fval b)).
  destruct (add_err a b Fa Fb) as (F1 & e1 & E1 & V1); [lra|].
  assert (D1 := abs_mul1 (fval a + fval b) e1 m ltac:(unfold m; lra) E1). rewrite <- V1 in D1.
  assert (M3 : m <= 3 * 2 ^ 200) by (unfold m; lra). assert (M0 : 0 <= m) by (unfold m; lra).
  assert (Um : u * m <= m * / 10000000) by nra.
  assert (B2 : Rabs (fval (add a b) + fval c) <= m + u * m).
  { replace (fval (add a b) + fval c) with ((fval (add a b) - (fval a + fval b)) + ((fval a + fval b) + fval c)) by ring.
    eapply Rle_trans; [apply Rabs_triang|]. assert (T2 := Rabs_triang (fval a + fval b) (fval c)). unfold m in *. lra. }
  destruct (add_err (add a b) c F1 Fc) as (F2 & e2 & E2 & V2); [lra|].
  assert (D2 := abs_mul1 _ e2 _ B2 E2). rewrite <- V2 in D2.
  destruct (of_Z_ok (Z.of_nat k)) as [Fk Vk]; [lia|]. assert (Vk' : fval (of_Z (Z.of_nat k) : NumF64) = INR k) by (rewrite Vk; symmetry; apply INR_IZR_INZ).
  assert (Kp : 1 <= INR k) by (change 1 with (INR 1); apply le_INR; exact K1).
  set (s := fval (add (add a b) c)) in *.
  assert (B3 : Rabs s <= 2 * m).
  { replace s with ((s - (fval (add a b) + fval c)) + (fval (add a b) + fval c)) by ring. eapply Rle_trans; [apply Rabs_triang|]. nra. }
  assert (B4 : Rabs (s / INR k) <= 2 * m).
  { unfold Rdiv. rewrite Rabs_mult. assert (I : 0 < / INR k <= 1) by (split; [apply Rinv_0_lt_compat; lra|rewrite <- Rinv_1; apply Rinv_le_contravar; lra]). rewrite (Rabs_pos_eq (/ INR k)) by lra. assert (H0 := Rabs_pos s). nra. }
  destruct (div_err (add (add a b) c) (of_Z (Z.of_nat k)) F2 Fk) as (F3 & e3 & t & E3 & Et & V3); [rewrite Vk'; lra|rewrite Vk'; fold s; lra|].
  split; [exact F3|]. fold d in V3. rewrite V3, Vk'. fold s.
  replace (INR k * (s / INR k * (1 + e3) + t) - (fval a + fval b + fval c)) with
    ((s * (1 + e3) - s) + (s - (fval (add a b) + fval c)) + (fval (add a b) - (fval a + fval b)) + INR k * t) by (field; lra).
  assert (D3 : Rabs (s * (1 + e3) - s) <= u * (m + 3 * (u * m))).
  { apply abs_mul1; [|exact E3]. replace s with ((s - (fval (add a b) + fval c)) + (fval (add a b) + fval c)) by ring. eapply Rle_trans; [apply Rabs_triang|]. nra. }
  assert (D4 : Rabs (INR k * t) <= INR k * eta) by (rewrite Rabs_mult, (Rabs_pos_eq (INR k)) by lra; apply Rmult_le_compat_l; lra).
  eapply Rle_trans; [apply Rabs_triang|]. apply Rplus_le_compat; [|exact D4].
  eapply Rle_trans; [apply Rabs_triang|]. assert (X := Rabs_triang (s * (1 + e3) - s) (s - (fval (add a b) + fval c))).
  assert (0 <= u * m) by nra. assert (u * (u * m) <= (u * m) * / 10000000) by nra. nra.
Qed.
Lemma sum_lower_R : forall (f : cid -> R) (d : R) l, (forall c, In c l -> d <= f c) -> INR (List.length l) * d <= sumR (map f l).
Proof.
  intros f d. induction l as [|c l IH]; intros H; [cbn; lra|]. cbn [List.length map]. rewrite S_INR. assert (G1 := H c (or_introl eq_refl)). assert (G2 := IH (fun c' H' => H c' (or_intror H'))).
  unfold sumR in *. cbn [fold_right]. lra.
Qed.

Section Tall.
Context (env : Env NumF64) {eng : Engine NumF64} (st : Styled NumF64) (xrows : list (xrow NumF64)) (s s' : PS NumF64 eng) (h : heap NumF64) (t : table NumF64).
Hypothesis HT : transformTable env st xrows s = (Some (h, t), s').
Hypothesis Mh : forall c, In c (flat_map r_cells (t_rows t)) -> moderate (c_minHeight (deref h c)).
Lemma row_of : forall c, In c (flat_map r_cells (t_rows t)) -> exists row, In row (t_rows t) /\ In c (r_cells row).
Proof. intros c H. apply in_flat_map in H. exact H. Qed.
Lemma height_at : forall c, In c (flat_map r_cells (t_rows t)) ->
  asked (c_height (deref h c)) /\ fval (c_minHeight (deref h c)) <= fval (c_height (deref h c)).
Proof.
  intros c Hc. destruct (row_of c Hc) as (row & R1 & R2).
  assert (Mr : forall c, In c (r_cells row) -> moderate (c_minHeight (deref h c))) by (intros c' H'; apply Mh, in_flat_map; exists row; auto).
  destruct (row_heights_float env st xrows s s' h t HT row R1) as (G & G0 & Gm); [intros c' H'; apply (Mr c' H')|]. destruct (G c R2) as [G1 G2].
  rewrite G1. split; [|exact G2]. split; [|exact G0]. destruct Gm as [->|(c' & H' & ->)]; [|exact (Mr c' H')]. destruct zero_ok as [Z1 Z2]. split; [exact Z1|]. rewrite Z2, Rabs_R0. apply Rlt_le, pow2_pos.
Qed.
Lemma own_height_float : forall c, In c (flat_map r_cells (t_rows t)) -> authored h c = true -> fin (Height (SDim (c_sty (deref h c)))) ->
  0 < fval (Height (SDim (c_sty (deref h c)))) -> fval (Height (SDim (c_sty (deref h c)))) <= fval (c_height (deref h c)).
Proof.
  intros c Hc Ha Hf Hh. destruct (height_at c Hc) as [_ G]. destruct (transform_spec env st xrows s _ _ HT) as (h1 & t1 & h0 & rows0 & E & _ & Src & Sp & _ & _ & Ms). injection E as <- <-.
  cbv zeta in Ms. destruct Ms as (_ & Mo & _). rewrite <- (Mo c Hc Ha); [exact G|]. unfold own. destruct zero_ok as [Z1 Z2]. rewrite (ltb_ok _ _ Z1 Hf), Z2. apply Rlt_bool_true. exact Hh.
Qed.
Lemma tall_enough_float : forall c (th : NumF64), In (c, th) (fst (measure env h (filter (authored h) (flat_map r_cells (t_rows t))) s)) ->
  let x := deref h c in
  let top := QTop (Padding (SBox (c_sty x))) in
  let bottom := QBottom (Padding (SBox (c_sty x))) in
  let n := (1 + List.length (c_spansRows x))%nat in
  moderate th -> moderate top -> moderate bottom -> (Z.of_nat n <= 2 ^ 20)%Z ->
  fin (snd (cell_dim h c)) /\
  fval th + fval top + fval bottom <= fval (snd (cell_dim h c)) + INR n * / 2 ^ 50 * (Rabs (fval th) + Rabs (fval top) + Rabs (fval bottom)) + / 2 ^ 1000.
Proof.
  intros c th Hm x top bottom n Mth Mt Mb Hn. destruct (transform_spec env st xrows s _ _ HT) as (h1 & t1 & h0 & rows0 & E & _ & Src & Sp & _ & _ & Ms). injection E as <- <-.
  cbv zeta in Ms. destruct Ms as (_ & _ & Mg). assert (U := u_small).
  assert (Hin := measure_keys env _ _ _ _ _ Hm). assert (Hown := measure_own env _ _ _ _ _ Hm). apply filter_In in Hin as [Hc Ha].
  assert (Tg : targets h c = c :: c_spansRows (deref h c)) by (unfold targets; rewrite Hown; reflexivity). fold x in Tg.
  assert (In1 : forall p, In p (c :: c_spansRows x) -> In p (flat_map r_cells (t_rows t))).
  { intros p [<-|Hp]; [exact Hc|]. apply flat_in_cells in Hc as [i Hi].
    destruct (owned env st xrows s s' h t HT i c Hi Ha) as (_ & _ & _ & _ & O5). apply In_nth_error in Hp as [j Hj].
    destruct (O5 j p Hj) as [O _]. apply (in_cells_flat _ _ _ O). }
  set (d := share x th).
  destruct (share_float th top bottom n Mth Mt Mb) as [Fd Ed]; [unfold n; lia|exact Hn|].
  assert (Sd : (div (add (add th top) bottom) (of_Z (Z.of_nat n)) : NumF64) = d).
  { unfold d, share, n, top, bottom. rewrite Nat2Z.inj_add. reflexivity. }
  rewrite Sd in Fd, Ed.
  assert (All : forall p, In p (c :: c_spansRows x) -> fval d <= fval (c_height (deref h p))).
  { intros p Hp. destruct (height_at p (In1 p Hp)) as [_ G]. rewrite <- Tg in Hp. assert (Mp := Mg c th p Hm Hp). fold x d in Mp. rewrite Mp in G. exact G. }
  assert (L := sum_lower_R (fun p => fval (c_height (deref h p))) (fval d) (c :: c_spansRows x) All).
  cbn [List.length] in L. change (S (List.length (c_spansRows x))) with n in L.
  unfold cell_dim. fold x. cbn [snd].
  assert (Fm : forall l (a : NumF64), fold_left (fun a p => add a (c_height (deref h p))) l a = fold_left add (map (fun p => c_height (deref h p)) l) a).
  { induction l as [|p l IH]; intros a; [reflexivity|cbn [fold_left map]; apply IH]. }
  destruct (height_at c Hc) as [[[H1 H2] H3] _]. fold x in H1, H2, H3.
  destruct (sum_float (map (fun p => c_height (deref h p)) (c_spansRows x)) (c_height x) (fval (c_height x)) 1) as [F1 E1].
  - intros r Hr. apply in_map_iff in Hr as (p & <- & Hp). apply (height_at p (In1 p (or_intror Hp))).
  - exact H1.
  - exact H3.
  - rewrite Rminus_diag_eq, Rabs_R0 by reflexivity. cbn [INR]. nra.
  - rewrite map_length. exact Hn.
  - cbn [INR]. rewrite Rabs_pos_eq in H2 by exact H3. lra.
  - rewrite map_map, map_length in E1. fold n in E1. rewrite Fm. split; [exact F1|].
    cbn [map] in L. unfold sumR in L at 1. cbn [fold_right] in L. fold (sumR (map (fun p => fval (c_height (deref h p))) (c_spansRows x))) in L. fold x in L.
    set (tot := fval (c_height x) + sumR (map (fun p => fval (c_height (deref h p))) (c_spansRows x))) in *.
    set (res := fval (fold_left add _ (c_height x))) in *.
    assert (T0 : 0 <= tot).
    { unfold tot. assert (0 <= sumR (map (fun p => fval (c_height (deref h p))) (c_spansRows x))); [|lra]. apply sum_nonneg. intros r Hr. apply in_map_iff in Hr as (p & <- & Hp). apply (height_at p (In1 p (or_intror Hp))). }
    set (m := Rabs (fval th) + Rabs (fval top) + Rabs (fval bottom)) in *.
    assert (M0 : 0 <= m) by (unfold m; assert (A1 := Rabs_pos (fval th)); assert (A2 := Rabs_pos (fval top)); assert (A3 := Rabs_pos (fval bottom)); lra).
    assert (Sm : fval th + fval top + fval bottom <= m) by (unfold m; assert (A1 := Rle_abs (fval th)); assert (A2 := Rle_abs (fval top)); assert (A3 := Rle_abs (fval bottom)); lra).
    apply Rabs_le_inv in E1. apply Rabs_le_inv in Ed.
    assert (N1 : 1 <= INR n) by (change 1 with (INR 1); apply le_INR; unfold n; lia).
    assert (N2 : INR n <= 2 ^ 20) by (rewrite INR_IZR_INZ; apply IZR_le in Hn; replace (2 ^ 20)%R with (IZR (2 ^ 20)) by (simpl; lra); exact Hn).
    assert (Uv : u = / 2 ^ 53) by apply u_val.
    assert (W : 4 * INR n * u <= 1).
    { rewrite Uv. apply (Rmult_le_reg_r (2 ^ 53)); [apply pow2_pos|]. rewrite Rmult_assoc, Rinv_l by (apply pow_nonzero; lra). assert (4 * 2 ^ 20 <= 1 * 2 ^ 53) by (simpl; lra). lra. }
    assert (E8 : / 2 ^ 50 = 8 * u).
    { rewrite Uv. replace 53%nat with (50 + 3)%nat by reflexivity. rewrite pow_add, Rinv_mult. simpl (2 ^ 3). field. }
    assert (Eta : 2 * INR n * eta <= / 2 ^ 1000).
    { rewrite eta_val. replace 1075%nat with (1000 + 75)%nat by reflexivity. rewrite pow_add, Rinv_mult. assert (P := Rinv_0_lt_compat _ (pow2_pos 1000)). assert (P5 := Rinv_0_lt_compat _ (pow2_pos 75)).
      assert (X : 2 * INR n * / 2 ^ 75 <= 1).
      { apply (Rmult_le_reg_r (2 ^ 75)); [apply pow2_pos|]. rewrite Rmult_assoc, Rinv_l by (apply pow_nonzero; lra). assert (2 * 2 ^ 20 <= 1 * 2 ^ 75) by (simpl; lra). lra. }
      nra. }
    assert (En : 0 <= INR n * eta) by (apply Rmult_le_pos; [lra|rewrite eta_val; apply Rlt_le, Rinv_0_lt_compat, pow2_pos]).
    rewrite E8. set (kd := INR n * fval d) in *. set (z := INR n * eta) in *. set (nu := INR n * u) in *.
    assert (NU : u <= nu) by (unfold nu; nra). assert (NM : u * m <= nu * m) by (apply Rmult_le_compat_r; assumption).
    replace (INR n * (8 * u) * m) with (8 * (nu * m)) by (unfold nu; ring).
    replace (2 * INR n * eta) with (2 * z) in Eta by (unfold z; ring). fold z in Ed. replace (4 * u * m) with (4 * (u * m)) in Ed by ring.
    replace (2 * INR n * u * tot) with (2 * (nu * tot)) in E1 by (unfold nu; ring).
    assert (NT : nu * tot <= tot * / 4) by (unfold nu in *; nra).
    destruct (Rle_lt_dec kd 0) as [Neg|Pos]; [lra|].
    assert (Lk : kd - 2 * (nu * kd) <= tot - 2 * (nu * tot)) by (unfold nu in *; nra).
    assert (Uk : nu * kd <= nu * m + 4 * (u * (nu * m)) + nu * z).
    { assert (kd <= m + 4 * (u * m) + z) by lra. replace (nu * m + 4 * (u * (nu * m)) + nu * z) with (nu * (m + 4 * (u * m) + z)) by ring. apply Rmult_le_compat_l; [unfold nu; nra|assumption]. }
    assert (nu * z <= z * / 4) by (unfold nu in *; nra).
    assert (Pm : 0 <= nu * m) by (unfold nu; nra). assert (u * (nu * m) <= (nu * m) * / 10000000) by nra. lra.
Qed.
End Tall.
