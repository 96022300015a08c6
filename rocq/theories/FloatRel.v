(** Relative errors of binary64. *)
From Coq Require Import ZArith Reals Lia Lra Psatz Floats.SpecFloat.
From Flocq Require Import Core.Core IEEE754.BinarySingleNaN Relative Plus_error.
From Verif Require Import Num FloatSpec FloatBase.
Local Open Scope R_scope.

Lemma u_small : 0 < u /\ u * 10000000 <= 1.
Proof. rewrite u_val. split; [apply Rinv_0_lt_compat, pow_lt; lra|]. apply (Rmult_le_reg_l (2 ^ 53)); [apply pow_lt; lra|]. rewrite <- Rmult_assoc, Rinv_r by (apply pow_nonzero; lra). lra. Qed.
(** [a] is [b] up to [k] units. *)
Definition near (k a b : R) : Prop := exists d, Rabs d <= k * u /\ a = b * (1 + d).
Lemma near_refl : forall a, near 0 a a.
Proof. intros a. exists 0. rewrite Rabs_R0. split; [lra|ring]. Qed.
Lemma near_le : forall k l a b, k <= l -> near k a b -> near l a b.
Proof. intros k l a b H (d & H1 & H2). exists d. split; [|exact H2]. eapply Rle_trans; [exact H1|]. apply Rmult_le_compat_r; [|exact H]. assert (S := u_small). lra. Qed.
Lemma err_mul : forall k l d e, 0 <= k <= 1000 -> 0 <= l <= 1000 -> Rabs d <= k * u -> Rabs e <= l * u -> Rabs (d + e + d * e) <= (k + l + 1) * u.
Proof.
  intros k l d e Hk Hl Hd He. assert (S := u_small). eapply Rle_trans; [apply Rabs_triang|]. rewrite Rabs_mult. assert (T := Rabs_triang d e).
  assert (Rabs d * Rabs e <= (k * u) * (l * u)) by (apply Rmult_le_compat; try apply Rabs_pos; assumption).
  assert (k * u * (l * u) <= u). { replace (k * u * (l * u)) with (k * l * u * u) by ring. rewrite <- (Rmult_1_l u) at 3. apply Rmult_le_compat_r; [lra|]. assert (k * l <= 1000 * 1000) by (apply Rmult_le_compat; lra). nra. }
  lra.
Qed.
Lemma near_mul : forall k l a b c e, 0 <= k <= 1000 -> 0 <= l <= 1000 -> near k a b -> near l c e -> near (k + l + 1) (a * c) (b * e).
Proof.
  intros k l a b c e Hk Hl (d1 & A1 & ->) (d2 & B1 & ->). exists (d1 + d2 + d1 * d2). split; [apply err_mul; assumption|ring].
Qed.
Lemma near_trans : forall k l a b c, 0 <= k <= 1000 -> 0 <= l <= 1000 -> near k a b -> near l b c -> near (k + l + 1) a c.
Proof.
  intros k l a b c Hk Hl (d1 & A1 & ->) (d2 & B1 & ->). exists (d1 + d2 + d1 * d2). split; [apply err_mul; assumption|ring].
Qed.
Lemma err_small : forall k d, 0 <= k <= 1000 -> Rabs d <= k * u -> Rabs d <= / 2.
Proof. intros k d Hk Hd. assert (S := u_small). eapply Rle_trans; [exact Hd|]. nra. Qed.
Lemma near_inv : forall k a b, 0 <= k <= 1000 -> b <> 0 -> near k a b -> near (k + 1) (/ a) (/ b).
Proof.
  intros k a b Hk Nb (d & H1 & ->). assert (H2 := err_small k d Hk H1). assert (S := u_small). apply Rabs_le_inv in H2.
  assert (P : 0 < 1 + d) by lra. exists (- d / (1 + d)). split; [|field; lra].
  unfold Rdiv. rewrite Rabs_mult, Rabs_Ropp, (Rabs_pos_eq (/ (1 + d))) by (left; apply Rinv_0_lt_compat; exact P).
  apply (Rmult_le_reg_r (1 + d)); [exact P|]. rewrite Rmult_assoc, Rinv_l by lra. rewrite Rmult_1_r.
  apply (Rle_trans _ (k * u)); [exact H1|].
  assert (- d <= k * u). { eapply Rle_trans; [|exact H1]. rewrite <- Rabs_Ropp. apply Rle_abs. }
  assert ((k + 1) * u * (1 - k * u) <= (k + 1) * u * (1 + d)). { apply Rmult_le_compat_l; [nra|lra]. }
  assert (k * u <= (k + 1) * u * (1 - k * u)); [|lra].
  replace ((k + 1) * u * (1 - k * u)) with (k * u + u * (1 - (k + 1) * k * u)) by ring. assert ((k + 1) * k <= 1001 * 1000) by (apply Rmult_le_compat; lra). nra.
Qed.
Lemma near_div : forall k l a b c e, 0 <= k <= 1000 -> 0 <= l <= 999 -> e <> 0 -> near k a b -> near l c e -> near (k + l + 2) (a / c) (b / e).
Proof.
  intros k l a b c e Hk Hl N H1 H2. replace (k + l + 2) with (k + (l + 1) + 1) by ring. apply near_mul; [exact Hk|lra|exact H1|]. apply near_inv; [lra|exact N|exact H2].
Qed.
Lemma near_rnd : forall x, / 2 ^ 1000 <= Rabs x -> near 1 (rnd x) x.
Proof.
  intros x H. destruct (relative_error_N_FLT_ex radix2 (-1074) prec64 eq_refl (fun z => negb (Z.even z)) x) as (e & H1 & H2).
  - eapply Rle_trans; [|exact H]. rewrite <- bpow_pow, <- bpow_opp. apply bpow_le. unfold prec64. lia.
  - exists e. split; [rewrite Rmult_1_l; exact H1|exact H2].
Qed.
(** What is near a positive number is positive and at most twice and at least half as large. *)
Lemma near_pos : forall k a b, 0 <= k <= 1000 -> 0 < b -> near k a b -> b / 2 <= a <= 2 * b.
Proof. intros k a b Hk Hb (d & H1 & ->). assert (H2 := err_small k d Hk H1). apply Rabs_le_inv in H2. nra. Qed.

(** Operations on positive numbers of a reasonable size. *)
Definition within (n : nat) (x : R) : Prop := / 2 ^ n <= x <= 2 ^ n.
Lemma pow2_pos : forall n, 0 < 2 ^ n.
Proof. intros. apply pow_lt. lra. Qed.
Lemma within_pos : forall n x, within n x -> 0 < x.
Proof. intros n x [H _]. eapply Rlt_le_trans; [|exact H]. apply Rinv_0_lt_compat, pow2_pos. Qed.
Lemma within_le : forall n m x, (n <= m)%nat -> within n x -> within m x.
Proof.
  intros n m x H [A B]. assert (2 ^ n <= 2 ^ m) by (apply Rle_pow; [lra|exact H]). split; [|lra]. eapply Rle_trans; [|exact A]. apply Rinv_le; [apply pow2_pos|assumption].
Qed.
Lemma within_mul : forall n m x y, within n x -> within m y -> within (n + m) (x * y).
Proof.
  intros n m x y Hx Hy. assert (P := within_pos _ _ Hx). assert (Q := within_pos _ _ Hy). destruct Hx as [A B], Hy as [C D]. unfold within. rewrite pow_add, Rinv_mult. 
  split; apply Rmult_le_compat; try assumption; try lra; left; apply Rinv_0_lt_compat, pow2_pos.
Qed.
Lemma within_inv : forall n x, within n x -> within n (/ x).
Proof.
  intros n x H. assert (P := within_pos _ _ H). destruct H as [A B]. split; [apply Rinv_le; [exact P|exact B]|].
  rewrite <- (Rinv_inv (2 ^ n)). apply Rinv_le; [apply Rinv_0_lt_compat, pow2_pos|exact A].
Qed.
Lemma within_div : forall n m x y, within n x -> within m y -> within (n + m) (x / y).
Proof. intros. apply within_mul; [assumption|apply within_inv; assumption]. Qed.
Lemma within_near : forall n k a b, 0 <= k <= 1000 -> within n b -> near k a b -> within (S n) a.
Proof.
  intros n k a b Hk Hb Hn. assert (P := within_pos _ _ Hb). destruct (near_pos k a b Hk P Hn) as [A B]. destruct Hb as [C D]. unfold within. cbn [pow]. rewrite Rinv_mult. split; lra.
Qed.
Lemma within_abs : forall n x, within n x -> Rabs x <= 2 ^ n.
Proof. intros n x H. rewrite Rabs_pos_eq; [apply H|]. left. exact (within_pos _ _ H). Qed.
Lemma mul_near : forall n m (x y : NumF64), fin x -> fin y -> within n (fval x) -> within m (fval y) -> (n + m <= 1000)%nat ->
  fin (mul x y) /\ near 1 (fval (mul x y)) (fval x * fval y) /\ within (S (n + m)) (fval (mul x y)).
Proof.
  intros n m x y Fx Fy Hx Hy H. assert (W := within_mul _ _ _ _ Hx Hy).
  destruct (mul_ok x y Fx Fy) as [A B]; [apply (rnd_small _ (n + m)); [lia|apply within_abs; exact W]|]. split; [exact A|]. rewrite B.
  assert (N : near 1 (rnd (fval x * fval y)) (fval x * fval y)).
  { apply near_rnd. rewrite Rabs_pos_eq by (left; exact (within_pos _ _ W)). apply (within_le _ 1000) in W; [apply W|exact H]. }
  split; [exact N|]. apply (within_near _ 1 _ (fval x * fval y)); [lra|exact W|exact N].
Qed.
Lemma div_near : forall n m (x y : NumF64), fin x -> fin y -> within n (fval x) -> within m (fval y) -> (n + m <= 1000)%nat ->
  fin (div x y) /\ near 1 (fval (div x y)) (fval x / fval y) /\ within (S (n + m)) (fval (div x y)).
Proof.
  intros n m x y Fx Fy Hx Hy H. assert (W := within_div _ _ _ _ Hx Hy). assert (P := within_pos _ _ Hy).
  destruct (div_ok x y Fx Fy) as [A B]; [lra|apply (rnd_small _ (n + m)); [lia|apply within_abs; exact W]|]. split; [exact A|]. rewrite B.
  assert (N : near 1 (rnd (fval x / fval y)) (fval x / fval y)).
  { apply near_rnd. rewrite Rabs_pos_eq by (left; exact (within_pos _ _ W)). apply (within_le _ 1000) in W; [apply W|exact H]. }
  split; [exact N|]. apply (within_near _ 1 _ (fval x / fval y)); [lra|exact W|exact N].
Qed.
Local Instance prec64_pos : Prec_gt_0 prec64 := eq_refl.
(** Different floats differ by more than a rounding error. *)
Lemma gap : forall x y : NumF64, fin x -> fin y -> 0 <= fval x -> fval x < fval y -> fval x * (1 + u) <= fval y.
Proof.
  intros x y Fx Fy P H. assert (V : Valid_exp (FLT_exp (-1074) prec64)) by (apply FLT_exp_valid; reflexivity).
  assert (G := succ_le_lt radix2 (FLT_exp (-1074) prec64) (fval x) (fval y) (fin_format x Fx) (fin_format y Fy) H).
  rewrite succ_eq_pos in G by exact P. assert (K := ulp_FLT_gt radix2 (-1074) prec64 (fval x)). rewrite (Rabs_pos_eq (fval x)) in K by exact P.
  replace (bpow radix2 (- prec64)) with u in K; [lra|]. rewrite u_val. replace (- prec64)%Z with (- Z.of_nat 53)%Z by reflexivity. rewrite bpow_opp, bpow_pow. reflexivity.
Qed.
(** Scaling down a positive number never rounds above it. *)
Lemma scaled_le : forall n (x y z : NumF64), fin x -> fin y -> fin z -> within n (fval x) -> within n (fval y) -> within n (fval z) -> (3 * n + 1 <= 1000)%nat ->
  fval y < fval z -> fval (div (mul x y) z) <= fval x.
Proof.
  intros n x y z Fx Fy Fz Hx Hy Hz Hn L. destruct (mul_near n n x y Fx Fy Hx Hy) as (F1 & N1 & W1); [lia|].
  assert (Pz := within_pos _ _ Hz). assert (Px := within_pos _ _ Hx). assert (Py := within_pos _ _ Hy).
  assert (W : within (S (n + n) + n) (fval (mul x y) / fval z)) by (apply within_div; assumption).
  destruct (div_ok (mul x y) z F1 Fz) as [A B]; [lra|apply (rnd_small _ (S (n + n) + n)); [lia|apply within_abs; exact W]|]. rewrite B. rewrite <- (rnd_id x Fx). apply rnd_le.
  destruct N1 as (d & D1 & ->). assert (G := gap y z Fy Fz (Rlt_le _ _ Py) L). apply (Rmult_le_reg_r (fval z)); [exact Pz|]. unfold Rdiv. rewrite Rmult_assoc, Rinv_l by lra. rewrite Rmult_1_r.
  rewrite Rmult_1_l in D1. apply Rabs_le_inv in D1. rewrite Rmult_assoc. apply Rmult_le_compat_l; [lra|]. eapply Rle_trans; [|exact G]. apply Rmult_le_compat_l; lra.
Qed.
