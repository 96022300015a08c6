(** Images in binary64 (C28). *)
From Coq Require Import ZArith Reals Lia Lra Psatz Floats.SpecFloat.
From Flocq Require Import Core.Core.
From Verif Require Import GoStr Num Style Class Instr Engine Layout Grid Table Lines Proc ProcView ImageFacts FloatSpec FloatBase FloatRel.
Local Open Scope R_scope.

Lemma near_rel : forall k a b, 0 <= k <= 32 -> near k a b -> rel_err (/ 2 ^ 48) a b.
Proof.
  intros k a b Hk (d & H & ->). unfold rel_err. replace (b * (1 + d) - b) with (d * b) by ring. rewrite Rabs_mult. apply Rmult_le_compat_r; [apply Rabs_pos|].
  eapply Rle_trans; [exact H|]. rewrite u_val. replace (2 ^ 53) with (32 * 2 ^ 48) by (simpl; lra). rewrite Rinv_mult. assert (0 < / 2 ^ 48) by (apply Rinv_0_lt_compat, pow2_pos). nra.
Qed.
Lemma int_ok : forall z, (0 < z <= 2 ^ 53)%Z -> fin (of_Z z : NumF64) /\ fval (of_Z z : NumF64) = IZR z /\ within 53 (IZR z).
Proof.
  intros z H. destruct (of_Z_ok z) as [A B]; [lia|]. split; [exact A|]. split; [exact B|]. assert (1 <= IZR z) by (apply IZR_le; lia). assert (IZR z <= IZR (2 ^ 53)) by (apply IZR_le; lia).
  split; [|replace (2 ^ 53) with (IZR (2 ^ 53)) by (simpl; lra); lra]. apply (Rle_trans _ 1); [|assumption]. rewrite <- Rinv_1. apply Rinv_le; [lra|]. apply pow_R1_Rle. lra.
Qed.
Lemma within_small : forall x (n : nat), / 2 ^ n <= x -> x <= 2 ^ n -> within n x.
Proof. intros. split; assumption. Qed.
(** Pixels to millimetres. *)
Lemma px_near : forall px, (0 < px <= 2 ^ 53)%Z -> fin (px_mm px : NumF64) /\ near 8 (fval (px_mm px : NumF64)) (IZR px * 254 / 960) /\ within 57 (fval (px_mm px : NumF64)).
Proof.
  intros px H. unfold px_mm.
  destruct (int_ok 254) as (A1 & A2 & _); [lia|]. destruct (int_ok 10) as (B1 & B2 & _); [lia|]. destruct (int_ok 96) as (C1 & C2 & _); [lia|]. destruct (int_ok px H) as (P1 & P2 & P3).
  destruct (div_near 8 4 (of_Z 254) (of_Z 10) A1 B1) as (D1 & D2 & _); [rewrite A2; split; cbn [pow]; lra|rewrite B2; split; cbn [pow]; lra|lia|]. rewrite A2, B2 in D2.
  assert (W1 : within 6 (fval (div (of_Z 254 : NumF64) (of_Z 10)))) by (apply (near_pos 1) in D2; [split; cbn [pow]; lra|lra|lra]).
  destruct (div_near 7 6 (of_Z 96) (div (of_Z 254) (of_Z 10)) C1 D1) as (E1 & E2 & _); [rewrite C2; split; cbn [pow]; lra|exact W1|lia|]. rewrite C2 in E2.
  assert (E3 : near 4 (fval (div (of_Z 96 : NumF64) (div (of_Z 254) (of_Z 10)))) (96 / (254 / 10))).
  { apply (near_le (1 + 2 + 1)); [lra|]. eapply near_trans; [lra|lra|exact E2|].
    destruct (near_inv 1 _ (254 / 10) ltac:(lra) ltac:(lra) D2) as (d & I1 & I2). exists d. split; [lra|]. unfold Rdiv in *. rewrite I2. ring. }
  assert (W2 : within 3 (fval (div (of_Z 96 : NumF64) (div (of_Z 254) (of_Z 10))))) by (apply (near_pos 4) in E3; [split; cbn [pow]; lra|lra|lra]).
  destruct (div_near 53 3 (of_Z px) (div (of_Z 96) (div (of_Z 254) (of_Z 10))) P1 E1) as (G1 & G2 & G3); [rewrite P2; exact P3|exact W2|lia|]. split; [exact G1|]. split; [|exact G3].
  rewrite P2 in G2. apply (near_le (1 + (4 + 1) + 1)); [lra|]. eapply near_trans; [lra|lra|exact G2|].
  destruct (near_inv 4 _ (96 / (254 / 10)) ltac:(lra) ltac:(lra) E3) as (d & I1 & I2). exists d. split; [exact I1|]. unfold Rdiv at 1. rewrite I2. field.
Qed.
Lemma ratio_near : forall a b, (0 < a <= 2 ^ 53)%Z -> (0 < b <= 2 ^ 53)%Z -> forall x : NumF64, ordinary x ->
  let r := mul (div (px_mm a) (px_mm b)) x : NumF64 in fin r /\ near 24 (fval r) (fval x * IZR a / IZR b) /\ within 316 (fval r).
Proof.
  intros a b Ha Hb x [Fx Hx] r. destruct (px_near a Ha) as (A1 & A2 & A3), (px_near b Hb) as (B1 & B2 & B3).
  destruct (div_near 57 57 _ _ A1 B1 A3 B3) as (D1 & D2 & D3); [lia|]. destruct (mul_near 115 200 _ x D1 Fx D3 Hx) as (E1 & E2 & E3); [lia|].
  split; [exact E1|]. split; [|exact E3]. assert (Pa : 0 < IZR a) by (apply IZR_lt; lia). assert (Pb : 0 < IZR b) by (apply IZR_lt; lia).
  assert (Q : near 18 (fval (px_mm a : NumF64) / fval (px_mm b : NumF64)) (IZR a / IZR b)).
  { destruct (near_div 8 8 _ _ _ (IZR b * 254 / 960) ltac:(lra) ltac:(lra) ltac:(lra) A2 B2) as (d & Hd1 & Hd2). exists d. split; [lra|]. rewrite Hd2. field. lra. }
  apply (near_le (1 + (20 + 0 + 1) + 1)); [lra|]. apply (near_trans 1 (20 + 0 + 1) _ _ _ ltac:(lra) ltac:(lra) E2).
  replace (fval x * IZR a / IZR b) with ((IZR a / IZR b) * fval x) by (field; lra). apply near_mul; [lra|lra| |apply near_refl].
  apply (near_le (1 + 18 + 1)); [lra|]. apply (near_trans 1 18 _ _ _ ltac:(lra) ltac:(lra) D2 Q).
Qed.

(** Fitting into the space. *)
Lemma fit_float : forall wr hr pw ph : NumF64, fin wr -> fin hr -> within 316 (fval wr) -> within 316 (fval hr) -> ordinary pw -> ordinary ph ->
  let '(w, h) := if ltb pw wr then (pw, div (mul hr pw) wr) else (wr, hr) in
  let '(w, h) := if ltb ph h then (div (mul w ph) h, ph) else (w, h) in
  fitted_float (fval wr) (fval hr) (fval pw) (fval ph) (fval w) (fval h).
Proof.
  intros wr hr pw ph Fw Fh Hw Hh [Fp Hp] [Fq Hq]. assert (Pw := within_pos _ _ Hw). assert (Ph := within_pos _ _ Hh).
  assert (Hp' : within 316 (fval pw)) by (apply (within_le 200); [lia|exact Hp]). assert (Hq' : within 316 (fval ph)) by (apply (within_le 200); [lia|exact Hq]).
  assert (Pp := within_pos _ _ Hp'). assert (Pq := within_pos _ _ Hq'). rewrite (ltb_ok pw wr Fp Fw). destruct (Rlt_bool_spec (fval pw) (fval wr)) as [L|L].
  - destruct (mul_near 316 200 hr pw Fh Fp Hh Hp) as (M1 & M2 & M3); [lia|]. destruct (div_near _ 316 _ wr M1 Fw M3 Hw) as (D1 & D2 & D3); [lia|].
    assert (Le := scaled_le 316 hr pw wr Fh Fp Fw Hh Hp' Hw ltac:(lia) L). set (h1 := div (mul hr pw) wr : NumF64) in *.
    assert (N1 : near 4 (fval h1) (fval pw / fval wr * fval hr)).
    { apply (near_le (1 + 1 + 1 + 1)); [lra|]. replace (1 + 1 + 1 + 1) with (1 + (1 + 1) + 1) by ring. eapply near_trans; [lra|lra|exact D2|].
      apply (near_le 1); [lra|]. destruct M2 as (d & M2 & M2'). exists d. split; [exact M2|]. rewrite M2'. field. lra. }
    rewrite (ltb_ok ph h1 Fq D1). destruct (Rlt_bool_spec (fval ph) (fval h1)) as [K|K].
    + assert (Hh1 : within 316 (fval h1)) by (split; [destruct Hq'; lra|destruct Hh; lra]). assert (P1 := within_pos _ _ Hh1).
      assert (Le2 := scaled_le 316 pw ph h1 Fp Fq D1 Hp' Hq' Hh1 ltac:(lia) K). destruct (mul_near 200 200 pw ph Fp Fq Hp Hq) as (R1 & R2 & R3); [lia|]. destruct (div_near _ 316 _ h1 R1 D1 R3 Hh1) as (S1 & S2 & S3); [lia|].
      split; [exact Le2|]. split; [lra|]. exists (fval ph / fval hr). split; [split; [apply Rdiv_lt_0_compat; lra|]|split; [|split; [|right; right; reflexivity]]].
      * apply (Rmult_le_reg_r (fval hr)); [exact Ph|]. unfold Rdiv. rewrite Rmult_assoc, Rinv_l by lra. lra.
      * apply (near_rel 12); [lra|]. apply (near_le (1 + (1 + 5 + 1) + 1)); [lra|]. eapply near_trans; [lra|lra|exact S2|].
        replace (fval ph / fval hr * fval wr) with (fval pw * fval ph * (/ (fval pw / fval wr * fval hr))) by (field; lra). unfold Rdiv at 1. apply near_mul; [lra|lra|exact R2|].
        apply (near_le (4 + 1)); [lra|]. apply near_inv; [lra| |exact N1]. assert (0 < fval pw / fval wr * fval hr); [|lra]. apply Rmult_lt_0_compat; [apply Rdiv_lt_0_compat; lra|lra].
      * apply (near_rel 0); [lra|]. replace (fval ph / fval hr * fval hr) with (fval ph) by (field; lra). apply near_refl.
    + split; [lra|]. split; [exact K|]. exists (fval pw / fval wr). split; [split; [apply Rdiv_lt_0_compat; lra|]|split; [|split; [|right; left; reflexivity]]].
      * apply (Rmult_le_reg_r (fval wr)); [exact Pw|]. unfold Rdiv. rewrite Rmult_assoc, Rinv_l by lra. lra.
      * apply (near_rel 0); [lra|]. replace (fval pw / fval wr * fval wr) with (fval pw) by (field; lra). apply near_refl.
      * apply (near_rel 4); [lra|exact N1].
  - rewrite (ltb_ok ph hr Fq Fh). destruct (Rlt_bool_spec (fval ph) (fval hr)) as [K|K].
    + assert (Le2 := scaled_le 316 wr ph hr Fw Fq Fh Hw Hq' Hh ltac:(lia) K). destruct (mul_near 316 200 wr ph Fw Fq Hw Hq) as (R1 & R2 & R3); [lia|]. destruct (div_near _ 316 _ hr R1 Fh R3 Hh) as (S1 & S2 & S3); [lia|].
      split; [lra|]. split; [lra|]. exists (fval ph / fval hr). split; [split; [apply Rdiv_lt_0_compat; lra|]|split; [|split; [|right; right; reflexivity]]].
      * apply (Rmult_le_reg_r (fval hr)); [exact Ph|]. unfold Rdiv. rewrite Rmult_assoc, Rinv_l by lra. lra.
      * apply (near_rel 3); [lra|]. apply (near_le (1 + 1 + 1)); [lra|]. eapply near_trans; [lra|lra|exact S2|]. destruct R2 as (d & R2 & R2'). exists d. split; [exact R2|]. rewrite R2'. field. lra.
      * apply (near_rel 0); [lra|]. replace (fval ph / fval hr * fval hr) with (fval ph) by (field; lra). apply near_refl.
    + split; [exact L|]. split; [exact K|]. exists 1. split; [lra|]. rewrite !Rmult_1_l. split; [apply (near_rel 0); [lra|apply near_refl]|]. split; [apply (near_rel 0); [lra|apply near_refl]|]. left. split; reflexivity.
Qed.

(** The size asked for. *)
Lemma request_float : forall (W H : NumF64) wpx hpx, fin W -> fin H -> (0 < fval W -> ordinary W) -> (0 < fval H -> ordinary H) ->
  (0 < wpx <= 2 ^ 53)%Z -> (0 < hpx <= 2 ^ 53)%Z ->
  let '(wr, hr) :=
    if ltb zero W && ltb zero H then (W, H)
    else if leb W zero && ltb zero H then (mul (div (px_mm wpx) (px_mm hpx)) H, H)
    else if ltb zero W && leb H zero then (W, mul (div (px_mm hpx) (px_mm wpx)) W)
    else (px_mm wpx, px_mm hpx) in
  fin wr /\ fin hr /\ within 316 (fval wr) /\ within 316 (fval hr) /\ requested_float wpx hpx (fval W) (fval H) (fval wr) (fval hr).
Proof.
  intros W H wpx hpx FW FH OW OH Hw Hh. destruct zero_ok as [Z1 Z2]. rewrite (ltb_ok zero W Z1 FW), (ltb_ok zero H Z1 FH), (leb_ok W zero FW Z1), (leb_ok H zero FH Z1), Z2.
  assert (B : forall x : NumF64, ordinary x -> fin x /\ within 316 (fval x)) by (intros x [A B]; split; [exact A|apply (within_le 200); [lia|exact B]]).
  destruct (Rlt_bool_spec 0 (fval W)) as [PW|PW], (Rlt_bool_spec 0 (fval H)) as [PH|PH]; cbn [andb].
  - destruct (B W (OW PW)), (B H (OH PH)). repeat (split; [assumption|]). repeat split; try (exfalso; lra); reflexivity.
  - rewrite (Rle_bool_true (fval H) 0) by exact PH. rewrite Bool.andb_false_r. cbn [andb]. destruct (B W (OW PW)) as [B1 B2]. destruct (ratio_near hpx wpx Hh Hw W (OW PW)) as (R1 & R2 & R3).
    repeat (split; [assumption|]). unfold requested_float. repeat split; try (intros; exfalso; lra). apply (near_rel 24); [lra|exact R2].
  - rewrite (Rle_bool_true (fval W) 0) by exact PW. cbn [andb]. destruct (B H (OH PH)) as [B1 B2]. destruct (ratio_near wpx hpx Hw Hh H (OH PH)) as (R1 & R2 & R3).
    repeat (split; [assumption|]). unfold requested_float. repeat split; try (intros; exfalso; lra). apply (near_rel 24); [lra|exact R2].
  - rewrite Bool.andb_false_r. destruct (px_near wpx Hw) as (A1 & A2 & A3), (px_near hpx Hh) as (C1 & C2 & C3). apply (within_le _ 316) in A3; [|lia]. apply (within_le _ 316) in C3; [|lia].
    repeat (split; [assumption|]). unfold requested_float. repeat split; try (intros; exfalso; lra); apply (near_rel 8); try lra; assumption.
Qed.
Lemma image_float : forall (env : Env NumF64) (eng : Engine NumF64) st source (pa : PrintableArea NumF64) (s : PS NumF64 eng) wpx hpx,
  e_image env (e_resolve env source) = Some (wpx, hpx) -> (0 < wpx <= 2 ^ 53)%Z -> (0 < hpx <= 2 ^ 53)%Z ->
  let d := SDim (e_mut env st (ps_sty s)) in
  ordinary (sub (pa_width pa) (OffsetX d)) -> ordinary (sub (pa_height pa) (OffsetY d)) ->
  fin (Width d) -> fin (Height d) -> (0 < fval (Width d) -> ordinary (Width d)) -> (0 < fval (Height d) -> ordinary (Height d)) ->
  exists w h wr hr,
    ps_trace (snd (renderImage env st source pa s)) =
      ps_trace s ++ [Ev (Simple (PutImage (e_resolve env source) (add (fst (getXY (ps_eng s))) (OffsetX d)) (add (snd (getXY (ps_eng s))) (OffsetY d)) w h)) []] /\
    requested_float wpx hpx (fval (Width d)) (fval (Height d)) wr hr /\
    fitted_float wr hr (fval (sub (pa_width pa) (OffsetX d))) (fval (sub (pa_height pa) (OffsetY d))) (fval w) (fval h).
Proof.
  intros env eng st source pa s wpx hpx Hi Hw Hh d Hpw Hph FW FH OW OH. rewrite renderImage_run, Hi. cbv zeta. fold d.
  assert (A := request_float (Width d) (Height d) wpx hpx FW FH OW OH Hw Hh). unfold image_size. cbv zeta. fold d.
  destruct (if ltb zero (Width d) && ltb zero (Height d) then _ else _) as [wr hr]. destruct A as (F1 & F2 & A1 & A2 & A3).
  assert (B := fit_float wr hr _ _ F1 F2 A1 A2 Hpw Hph).
  destruct (if ltb (sub (pa_width pa) (OffsetX d)) wr then _ else _) as [w1 h1]. destruct (if ltb (sub (pa_height pa) (OffsetY d)) h1 then _ else _) as [w h].
  exists w, h, (fval wr), (fval hr). split; [reflexivity|]. split; [exact A3|exact B].
Qed.
