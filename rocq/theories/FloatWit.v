(** Material for the examples in binary64. *)
From Coq Require Import ZArith Reals Lia Lra Floats.SpecFloat.
From Flocq Require Import Core.Core IEEE754.BinarySingleNaN.
From Verif Require Import GoStr Num Style Class Instr Engine Layout Grid Table Lines Proc ProcView TableView FloatSpec FloatBase.
From Coq Require Import Rdefinitions.
Local Open Scope R_scope.

(** Checks of numbers by computation. *)
Definition moderate_b (x : NumF64) : bool :=
  valid_binary prec64 emax64 x && is_finite_SF x && match x with S754_finite _ _ e => (e <=? 100)%Z | _ => true end.
Definition ordinary_b (x : NumF64) : bool :=
  valid_binary prec64 emax64 x && match x with S754_finite false _ e => (-200 <=? e)%Z && (e <=? 100)%Z | _ => false end.
Lemma mantissa : forall s m e, valid_binary prec64 emax64 (S754_finite s m e) = true -> (1 <= Zpos m < 2 ^ 53)%Z.
Proof.
  intros s m e H. split; [lia|]. cbn in H. unfold bounded in H. apply andb_prop in H as [H _]. unfold canonical_mantissa in H. apply Zeq_bool_eq in H.
  assert (D := Digits.Zdigits_correct radix2 (Zpos m)). rewrite <- Digits.Zpos_digits2_pos in D.
  change (Zpos (Digits.digits2_pos m)) with (Zpos (digits2_pos m)) in D. unfold fexp, emin in H. change prec64 with 53%Z in H.
  assert (Zpos (digits2_pos m) <= 53)%Z by lia. destruct D as [_ D]. cbn [Z.abs] in D. eapply Z.lt_le_trans; [exact D|]. apply (Zpower_le radix2 _ 53 H0).
Qed.
Lemma moderate_b_ok : forall x, moderate_b x = true -> moderate x.
Proof.
  intros x H. unfold moderate_b in H. apply andb_prop in H as [H E]. apply andb_prop in H as [V I]. split; [split; assumption|].
  destruct x as [s|s| |s m e]; try discriminate I; [change (fval (S754_zero s)) with 0; rewrite Rabs_R0; apply pow_le; lra|].
  apply Z.leb_le in E. assert (M := mantissa _ _ _ V). unfold fval, SF2R. rewrite <- F2R_Zabs. unfold F2R. cbn [Fnum Fexp].
  replace (Z.abs (cond_Zopp s (Zpos m))) with (Zpos m) by (destruct s; reflexivity).
  apply Rle_trans with (IZR (2 ^ 53) * bpow radix2 100).
  - apply Rmult_le_compat; [apply IZR_le; lia|apply bpow_ge_0|apply IZR_le; lia|apply bpow_le; exact E].
  - change (2 ^ 53)%Z with (Zpower radix2 53). rewrite IZR_Zpower by lia. rewrite <- bpow_plus. change (53 + 100)%Z with (Z.of_nat 153). rewrite bpow_pow. apply Rle_pow; [lra|lia].
Qed.
Lemma ordinary_b_ok : forall x, ordinary_b x = true -> ordinary x.
Proof.
  intros x H. unfold ordinary_b in H. apply andb_prop in H as [V E]. destruct x as [s|s| |[] m e]; try discriminate E. apply andb_prop in E as [E1 E2].
  apply Z.leb_le in E1, E2. assert (M := mantissa _ _ _ V).
  destruct (moderate_b_ok (S754_finite false m e)) as [F B]; [unfold moderate_b; rewrite V; cbn; apply Z.leb_le; exact E2|]. split; [exact F|].
  assert (L : / 2 ^ 200 <= fval (S754_finite false m e)); [|rewrite Rabs_pos_eq in B; [lra|]; eapply Rle_trans; [|exact L]; apply Rlt_le, Rinv_0_lt_compat, pow_lt; lra].
  unfold fval, SF2R, F2R. cbn [Fnum Fexp cond_Zopp]. apply Rle_trans with (1 * bpow radix2 (-200)).
  - change (-200)%Z with (- Z.of_nat 200)%Z. rewrite bpow_opp, bpow_pow. lra.
  - apply Rmult_le_compat; [lra|apply bpow_ge_0|apply IZR_le; lia|apply bpow_le; exact E1].
Qed.

(** A page of 210 x 297 with margins of 10, on which nothing moves; a character is 1.1 wide. *)
Definition still : Engine NumF64 := mkEngine NumF64 unit
  (fun _ => (of_Z 10, of_Z 10)) (fun _ => (of_Z 10, of_Z 10, of_Z 200, of_Z 287)) (fun _ => of_Z 210) (fun _ => of_Z 297)
  (fun _ => (of_Z 10, of_Z 10, of_Z 10, of_Z 10)) (fun _ => of_Z 5) (fun _ s => div (of_Z (11 * Z.of_nat (List.length s))) (of_Z 10))
  (fun _ => 1%Z) (fun _ => None) (fun _ e => e) (fun e => EDone e) (fun _ e => EDone e) (fun e => EDone e) (fun _ => None).
Definition f_env : Env NumF64 :=
  mkEnv (fun st s => match mutated_styles [] st s with Some s' => s' | None => s end)
        (fun sel st s => match mutated_styles_sel sel [] st s with Some s' => s' | None => s end)
        (fun s => [s]) (fun n => n) (fun n => if beqb n ($"missing") then None else Some (1000%Z, 300%Z)) (fun l => l) [] [] [].
Definition f_state : PS NumF64 still := mkPS (eng:=still) tt DefaultStyle false [].
Definition f_area : PrintableArea NumF64 := mkPA (of_Z 10) (of_Z 10) (of_Z 200) (of_Z 287).
Definition f_width (v : NumF64) : Styled NumF64 := mkStyled [[([3; 0]%nat, VFloat (F:=NumF64) v)]] [].
Definition f_rows : list (xrow NumF64) :=
  [XRow no_style [XCell (f_width (div (of_Z 1) (of_Z 10))) 1 1 []; XCell no_style 1 1 []; XCell no_style 1 1 []; XCell no_style 1 1 []]].
Definition f_tenths (n : Z) : NumF64 := div (of_Z n) (of_Z 10).
Definition f_height (v : NumF64) : Styled NumF64 := mkStyled [[([2; 1]%nat, VFloat (F:=NumF64) v)]] [].
Definition same_style_f : Styled NumF64 -> Styles NumF64 -> Styles NumF64 := fun _ s => s.
Definition f_tall : list (xrow NumF64) :=
  [XRow no_style [XCell (f_height (f_tenths 1)) 1 2 []; XCell (f_height (f_tenths 2)) 1 1 []]; XRow no_style [XCell (f_height (f_tenths 7)) 1 1 []]].
(** A text over six rows, with 0.2 above it and 0.1 below it. *)
Definition f_padding : Styled NumF64 := mkStyled [[([1; 1; 1]%nat, VFloat (F:=NumF64) (f_tenths 2)); ([1; 1; 3]%nat, VFloat (F:=NumF64) (f_tenths 1))]] [].
Definition f_six : list (xrow NumF64) :=
  XRow no_style [XCell f_padding 1 6 [ITextBlock ($"abc")]; XCell no_style 1 1 []] :: List.repeat (XRow no_style [XCell no_style 1 1 []]) 5.
Definition f_wide : list (xrow NumF64) :=
  [XRow no_style [XCell (f_width (f_tenths 1)) 1 1 []; XCell no_style 2 1 []];
   XRow no_style [XCell no_style 1 1 []; XCell (f_width (f_tenths 2)) 1 1 []; XCell (f_width (f_tenths 3)) 1 1 []]].
