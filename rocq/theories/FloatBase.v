(** The arithmetic of binary64 is correctly rounded: from the standard library's SpecFloat to
    Flocq. *)
From Coq Require Import ZArith Reals Lia Lra Psatz Floats.SpecFloat.
From Flocq Require Import Core.Core IEEE754.BinarySingleNaN Relative Plus_error.
From Verif Require Import Num FloatSpec.

Local Instance Hprec : Prec_gt_0 prec64 := eq_refl.
Local Instance Hmax : Prec_lt_emax prec64 emax64 := eq_refl.
Local Notation bf := (binary_float prec64 emax64).

Lemma round_even_equiv s m l : round_nearest_even m l = choice_mode mode_NE s m l.
Proof. case l; [reflexivity|intro c]. case c; [|reflexivity..]. now simpl; unfold Round.cond_incr; case Z.even. Qed.
Lemma round_aux_equiv sx mx ex lx : SpecFloat.binary_round_aux prec64 emax64 sx mx ex lx = BinarySingleNaN.binary_round_aux prec64 emax64 mode_NE sx mx ex lx.
Proof.
  unfold SpecFloat.binary_round_aux, BinarySingleNaN.binary_round_aux. set (mrse' := shr_fexp _ _ _). case mrse'; intros mrs' e'; simpl. now rewrite (round_even_equiv sx).
Qed.
Lemma round_equiv s m e : SpecFloat.binary_round prec64 emax64 s m e = BinarySingleNaN.binary_round prec64 emax64 mode_NE s m e.
Proof. unfold SpecFloat.binary_round, BinarySingleNaN.binary_round, shl_align_fexp. set (mez := shl_align _ _ _); case mez as [mz ez]. apply round_aux_equiv. Qed.
Lemma normalize_equiv m e szero : SpecFloat.binary_normalize prec64 emax64 m e szero = B2SF (BinarySingleNaN.binary_normalize prec64 emax64 Hprec Hmax mode_NE m e szero).
Proof. case m as [|p|p]; [now simpl|..]; simpl; rewrite B2SF_SF2B; apply round_equiv. Qed.
Lemma add_equiv (x y : bf) : SFadd prec64 emax64 (B2SF x) (B2SF y) = B2SF (Bplus mode_NE x y).
Proof. case x as [sx|sx| |sx mx ex Bx]; case y as [sy|sy| |sy my ey By]; [now (trivial || simpl; case Bool.eqb)..|]. apply normalize_equiv. Qed.
Lemma sub_equiv (x y : bf) : SFsub prec64 emax64 (B2SF x) (B2SF y) = B2SF (Bminus mode_NE x y).
Proof.
  case x as [sx|sx| |sx mx ex Bx]; case y as [sy|sy| |sy my ey By]; [now (trivial || simpl; case Bool.eqb)..|].
  simpl. unfold Zminus. rewrite <- cond_Zopp_negb. apply normalize_equiv.
Qed.
Lemma mul_equiv (x y : bf) : SFmul prec64 emax64 (B2SF x) (B2SF y) = B2SF (Bmult mode_NE x y).
Proof. case x as [sx|sx| |sx mx ex Bx]; case y as [sy|sy| |sy my ey By]; [now trivial..|]. simpl. rewrite B2SF_SF2B. apply round_aux_equiv. Qed.
Lemma div_equiv (x y : bf) : SFdiv prec64 emax64 (B2SF x) (B2SF y) = B2SF (Bdiv mode_NE x y).
Proof.
  case x as [sx|sx| |sx mx ex Bx]; case y as [sy|sy| |sy my ey By]; [now (trivial || simpl; case Bool.eqb)..|].
  simpl. rewrite B2SF_SF2B. set (melz := SFdiv_core_binary _ _ _ _ _ _). case melz as [[mz ez] lz]. apply round_aux_equiv.
Qed.

(** Finite numbers. *)
Lemma fin_B : forall x, fin x -> exists b : bf, x = B2SF b /\ is_finite b = true /\ fval x = B2R b.
Proof.
  intros x [V F]. exists (SF2B x V). split; [symmetry; apply B2SF_SF2B|]. split; [rewrite is_finite_SF2B; exact F|]. unfold fval. rewrite B2R_SF2B. reflexivity.
Qed.
Lemma B_fin : forall b : bf, is_finite b = true -> fin (B2SF b) /\ fval (B2SF b) = B2R b.
Proof. intros b F. split; [split; [apply valid_binary_B2SF|rewrite is_finite_SF_B2SF; exact F]|]. destruct b; reflexivity. Qed.
Definition fx : Z -> Z := SpecFloat.fexp prec64 emax64.
Definition rnd (x : R) : R := round radix2 fx ZnearestE x.
Definition big : R := bpow radix2 emax64.
Local Open Scope R_scope.
Lemma fin_format : forall x, fin x -> generic_format radix2 fx (fval x).
Proof. intros x H. destruct (fin_B x H) as (b & -> & _ & ->). apply generic_format_B2R. Qed.

Lemma add_ok : forall x y : NumF64, fin x -> fin y -> Rabs (rnd (fval x + fval y)) < big -> fin (add x y) /\ fval (add x y) = rnd (fval x + fval y).
Proof.
  intros x y Hx Hy B. destruct (fin_B x Hx) as (a & -> & Fa & Ea), (fin_B y Hy) as (b & -> & Fb & Eb). rewrite Ea, Eb in *.
  change (add (B2SF a : NumF64) (B2SF b)) with (SFadd prec64 emax64 (B2SF a) (B2SF b)). rewrite add_equiv.
  assert (C := Bplus_correct prec64 emax64 Hprec Hmax mode_NE a b Fa Fb). rewrite Rlt_bool_true in C by exact B. destruct C as (C1 & C2 & _).
  destruct (B_fin _ C2) as [D1 D2]. split; [exact D1|]. rewrite D2. exact C1.
Qed.
Lemma sub_ok : forall x y : NumF64, fin x -> fin y -> Rabs (rnd (fval x - fval y)) < big -> fin (sub x y) /\ fval (sub x y) = rnd (fval x - fval y).
Proof.
  intros x y Hx Hy B. destruct (fin_B x Hx) as (a & -> & Fa & Ea), (fin_B y Hy) as (b & -> & Fb & Eb). rewrite Ea, Eb in *.
  change (sub (B2SF a : NumF64) (B2SF b)) with (SFsub prec64 emax64 (B2SF a) (B2SF b)). rewrite sub_equiv.
  assert (C := Bminus_correct prec64 emax64 Hprec Hmax mode_NE a b Fa Fb). rewrite Rlt_bool_true in C by exact B. destruct C as (C1 & C2 & _).
  destruct (B_fin _ C2) as [D1 D2]. split; [exact D1|]. rewrite D2. exact C1.
Qed.
Lemma mul_ok : forall x y : NumF64, fin x -> fin y -> Rabs (rnd (fval x * fval y)) < big -> fin (mul x y) /\ fval (mul x y) = rnd (fval x * fval y).
Proof.
  intros x y Hx Hy B. destruct (fin_B x Hx) as (a & -> & Fa & Ea), (fin_B y Hy) as (b & -> & Fb & Eb). rewrite Ea, Eb in *.
  change (mul (B2SF a : NumF64) (B2SF b)) with (SFmul prec64 emax64 (B2SF a) (B2SF b)). rewrite mul_equiv.
  assert (C := Bmult_correct prec64 emax64 Hprec Hmax mode_NE a b). rewrite Rlt_bool_true in C by exact B. destruct C as (C1 & C2 & _). rewrite Fa, Fb in C2.
  destruct (B_fin _ C2) as [D1 D2]. split; [exact D1|]. rewrite D2. exact C1.
Qed.
Lemma div_ok : forall x y : NumF64, fin x -> fin y -> fval y <> 0 -> Rabs (rnd (fval x / fval y)) < big -> fin (div x y) /\ fval (div x y) = rnd (fval x / fval y).
Proof.
  intros x y Hx Hy N B. destruct (fin_B x Hx) as (a & -> & Fa & Ea), (fin_B y Hy) as (b & -> & Fb & Eb). rewrite Ea, Eb in *.
  change (div (B2SF a : NumF64) (B2SF b)) with (SFdiv prec64 emax64 (B2SF a) (B2SF b)). rewrite div_equiv.
  assert (C := Bdiv_correct prec64 emax64 Hprec Hmax mode_NE a b N). rewrite Rlt_bool_true in C by exact B. destruct C as (C1 & C2 & _). rewrite Fa in C2.
  destruct (B_fin _ C2) as [D1 D2]. split; [exact D1|]. rewrite D2. exact C1.
Qed.
Lemma leb_ok : forall x y : NumF64, fin x -> fin y -> leb x y = Rle_bool (fval x) (fval y).
Proof.
  intros x y Hx Hy. destruct (fin_B x Hx) as (a & -> & Fa & ->), (fin_B y Hy) as (b & -> & Fb & ->). rewrite <- (Bleb_correct prec64 emax64 a b Fa Fb). reflexivity.
Qed.
Lemma ltb_ok : forall x y : NumF64, fin x -> fin y -> ltb x y = Rlt_bool (fval x) (fval y).
Proof.
  intros x y Hx Hy. destruct (fin_B x Hx) as (a & -> & Fa & ->), (fin_B y Hy) as (b & -> & Fb & ->). rewrite <- (Bltb_correct prec64 emax64 a b Fa Fb). reflexivity.
Qed.
Lemma eqb_ok : forall x y : NumF64, fin x -> fin y -> eqb x y = Req_bool (fval x) (fval y).
Proof.
  intros x y Hx Hy. destruct (fin_B x Hx) as (a & -> & Fa & ->), (fin_B y Hy) as (b & -> & Fb & ->). rewrite <- (Beqb_correct prec64 emax64 a b Fa Fb). reflexivity.
Qed.

(** Rounding. *)
Lemma rnd_le : forall x y, x <= y -> rnd x <= rnd y.
Proof. intros x y H. apply round_le; [apply fexp_correct; reflexivity|apply valid_rnd_N|exact H]. Qed.
Lemma rnd_id : forall x : NumF64, fin x -> rnd (fval x) = fval x.
Proof. intros x H. apply round_generic; [apply valid_rnd_N|apply fin_format; exact H]. Qed.
Definition u : R := / 2 * bpow radix2 (- prec64 + 1).
Definition eta : R := / 2 * bpow radix2 (-1074).
Lemma fx_flt : forall e, fx e = FLT_exp (-1074) prec64 e.
Proof. reflexivity. Qed.
Lemma rnd_err : forall x, exists e t, Rabs e <= u /\ Rabs t <= eta /\ rnd x = x * (1 + e) + t.
Proof.
  intros x. destruct (error_N_FLT radix2 (-1074) prec64 eq_refl (fun z => negb (Z.even z)) x) as (e & t & H1 & H2 & _ & H3). exists e, t. split; [exact H1|]. split; [exact H2|exact H3].
Qed.
(** Sums of floats do not underflow. *)
Lemma rnd_sum : forall x y : NumF64, fin x -> fin y -> exists e, Rabs e <= u /\ rnd (fval x + fval y) = (fval x + fval y) * (1 + e).
Proof.
  intros x y Hx Hy. destruct (FLT_plus_error_N_ex radix2 (-1074) prec64 (fun z => negb (Z.even z)) (fval x) (fval y)) as (e & H1 & H2); [exact (fin_format x Hx)|exact (fin_format y Hy)|].
  exists e. split; [|exact H2]. eapply Rle_trans; [exact H1|]. apply u_rod1pu_ro_le_u_ro.
Qed.

Lemma bpow_pow : forall n : nat, bpow radix2 (Z.of_nat n) = 2 ^ n.
Proof. intros n. rewrite bpow_powerRZ, <- pow_powerRZ. reflexivity. Qed.
Lemma u_val : u = / 2 ^ 53.
Proof. unfold u. replace (- prec64 + 1)%Z with (- Z.of_nat 52)%Z by reflexivity. rewrite bpow_opp, bpow_pow, <- Rinv_mult. f_equal. Qed.
Lemma eta_val : eta = / 2 ^ 1075.
Proof.
  unfold eta. replace (-1074)%Z with (- Z.of_nat 1074)%Z by reflexivity. rewrite bpow_opp, bpow_pow. rewrite <- Rinv_mult. f_equal.
Qed.
Lemma rnd_bound : forall x (n : nat), (n <= 1023)%nat -> Rabs x <= 2 ^ n -> Rabs (rnd x) <= 2 ^ n.
Proof.
  intros x n Hn H. rewrite <- bpow_pow in *. apply abs_round_le_generic; [apply fexp_correct; reflexivity|apply valid_rnd_N| |exact H].
  apply generic_format_bpow. rewrite fx_flt. unfold FLT_exp, prec64. lia.
Qed.
Lemma rnd_small : forall x (n : nat), (n <= 1023)%nat -> Rabs x <= 2 ^ n -> Rabs (rnd x) < big.
Proof.
  intros x n Hn H. eapply Rle_lt_trans; [exact (rnd_bound x n Hn H)|]. unfold big. rewrite <- bpow_pow. apply bpow_lt. unfold emax64. lia.
Qed.
Lemma add_err : forall x y : NumF64, fin x -> fin y -> Rabs (fval x + fval y) <= 2 ^ 1000 ->
  fin (add x y) /\ exists e, Rabs e <= u /\ fval (add x y) = (fval x + fval y) * (1 + e).
Proof.
  intros x y Hx Hy H. destruct (add_ok x y Hx Hy) as [A B]; [apply (rnd_small _ 1000); [lia|exact H]|]. split; [exact A|]. rewrite B. apply rnd_sum; assumption.
Qed.
Lemma opp_fin : forall x : NumF64, fin x -> exists y : NumF64, fin y /\ fval y = - fval x.
Proof.
  intros x H. destruct (fin_B x H) as (b & -> & Fb & ->). exists (B2SF (Bopp b)). destruct (B_fin (Bopp b)) as [A B]; [rewrite is_finite_Bopp; exact Fb|]. split; [exact A|]. rewrite B. apply B2R_Bopp.
Qed.
Lemma sub_err : forall x y : NumF64, fin x -> fin y -> Rabs (fval x - fval y) <= 2 ^ 1000 ->
  fin (sub x y) /\ exists e, Rabs e <= u /\ fval (sub x y) = (fval x - fval y) * (1 + e).
Proof.
  intros x y Hx Hy H. destruct (sub_ok x y Hx Hy) as [A B]; [apply (rnd_small _ 1000); [lia|exact H]|]. split; [exact A|]. rewrite B.
  destruct (opp_fin y Hy) as (z & Hz & Ez). unfold Rminus. rewrite <- Ez. apply rnd_sum; assumption.
Qed.
Lemma mul_err : forall x y : NumF64, fin x -> fin y -> Rabs (fval x * fval y) <= 2 ^ 1000 ->
  fin (mul x y) /\ exists e t, Rabs e <= u /\ Rabs t <= eta /\ fval (mul x y) = fval x * fval y * (1 + e) + t.
Proof. intros x y Hx Hy H. destruct (mul_ok x y Hx Hy) as [A B]; [apply (rnd_small _ 1000); [lia|exact H]|]. split; [exact A|]. rewrite B. apply rnd_err. Qed.
Lemma div_err : forall x y : NumF64, fin x -> fin y -> fval y <> 0 -> Rabs (fval x / fval y) <= 2 ^ 1000 ->
  fin (div x y) /\ exists e t, Rabs e <= u /\ Rabs t <= eta /\ fval (div x y) = fval x / fval y * (1 + e) + t.
Proof. intros x y Hx Hy N H. destruct (div_ok x y Hx Hy N) as [A B]; [apply (rnd_small _ 1000); [lia|exact H]|]. split; [exact A|]. rewrite B. apply rnd_err. Qed.
Lemma int_format : forall z, (Z.abs z <= 2 ^ 53)%Z -> generic_format radix2 fx (IZR z).
Proof.
  intros z H. change (generic_format radix2 (FLT_exp (-1074) prec64) (IZR z)). apply generic_format_FLT.
  destruct (Z.eq_dec (Z.abs z) (2 ^ 53)) as [E|N].
  - exists (Float radix2 (Z.sgn z * 2 ^ 52) 1); [|cbn [Fnum]|cbn; lia].
    + unfold F2R. cbn [Fnum Fexp]. change (bpow radix2 1) with (IZR 2). rewrite <- mult_IZR. f_equal. lia.
    + rewrite Z.abs_mul. assert (Z.abs (Z.sgn z) <= 1)%Z by lia. change (radix2 ^ prec64)%Z with (2 ^ 53)%Z. lia.
  - exists (Float radix2 z 0); [unfold F2R; cbn; ring|cbn [Fnum]|cbn; lia]. change (radix2 ^ prec64)%Z with (2 ^ 53)%Z. lia.
Qed.
Lemma of_Z_ok : forall z, (Z.abs z <= 2 ^ 53)%Z -> fin (of_Z z : NumF64) /\ fval (of_Z z : NumF64) = IZR z.
Proof.
  intros z H. change (of_Z z : NumF64) with (SpecFloat.binary_normalize prec64 emax64 z 0 false). rewrite normalize_equiv.
  assert (C := binary_normalize_correct prec64 emax64 Hprec Hmax mode_NE z 0 false). cbv zeta in C. unfold F2R in C. cbn [Fnum Fexp] in C.
  change (bpow radix2 0) with 1 in C. rewrite Rmult_1_r in C. change (round radix2 (SpecFloat.fexp prec64 emax64) (round_mode mode_NE) (IZR z)) with (rnd (IZR z)) in C.
  assert (E : rnd (IZR z) = IZR z) by (apply round_generic; [apply valid_rnd_N|apply int_format; exact H]). rewrite E in C.
  rewrite Rlt_bool_true in C.
  - destruct C as (C1 & C2 & _). destruct (B_fin _ C2) as [D1 D2]. split; [exact D1|]. rewrite D2. exact C1.
  - rewrite <- abs_IZR. eapply Rle_lt_trans; [apply IZR_le; exact H|]. change (IZR (2 ^ 53)) with (IZR (Zpower radix2 53)). rewrite IZR_Zpower by lia. apply bpow_lt. reflexivity.
Qed.
Lemma zero_ok : fin (zero : NumF64) /\ fval (zero : NumF64) = 0.
Proof. destruct (of_Z_ok 0) as [A B]; [cbn; lia|]. split; [exact A|exact B]. Qed.
