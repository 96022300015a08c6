(** binary64: integers other than zero are not rounded to zero. *)
From Coq Require Import ZArith Lia Bool.
From Coq Require Import Floats.SpecFloat.
From Verif Require Import Num.
Local Open Scope Z_scope.

Lemma digits_bound : forall p, 2 ^ (Zpos (digits2_pos p) - 1) <= Zpos p.
Proof.
  induction p as [p IH|p IH|]; cbn [digits2_pos]; [| |reflexivity]; rewrite Pos2Z.inj_succ; replace (Z.succ (Zpos (digits2_pos p)) - 1) with (1 + (Zpos (digits2_pos p) - 1)) by lia;
    rewrite Z.pow_add_r by lia; lia.
Qed.
Lemma shr_1_m : forall r, 0 <= shr_m r -> shr_m (shr_1 r) = shr_m r / 2.
Proof.
  intros [m a b] H. cbn in H |- *. destruct m as [|p|p]; [reflexivity| |lia]. destruct p; cbn [shr_m]; [|apply Z.div_unique with 0; lia|reflexivity].
  apply Z.div_unique with 1; lia.
Qed.
Lemma iter_m : forall p r, 0 <= shr_m r -> shr_m (iter_pos shr_1 p r) = shr_m r / 2 ^ Zpos p.
Proof.
  assert (pos : forall a b, 0 <= a -> 0 < b -> 0 <= a / b) by (intros; apply Z.div_pos; lia).
  induction p as [p IH|p IH|]; intros r H; cbn [iter_pos].
  - assert (H1 : 0 <= shr_m (shr_1 r)) by (rewrite shr_1_m by assumption; apply pos; lia).
    assert (H2 : 0 <= shr_m (iter_pos shr_1 p (shr_1 r))) by (rewrite IH by assumption; apply pos; lia).
    rewrite !IH, shr_1_m by assumption. rewrite !Z.div_div by lia. f_equal. rewrite (Pos2Z.inj_xI p), Z.pow_add_r, Z.pow_twice_r by lia. lia.
  - assert (H2 : 0 <= shr_m (iter_pos shr_1 p r)) by (rewrite IH by assumption; apply pos; lia).
    rewrite !IH by assumption. rewrite !Z.div_div by lia. f_equal. rewrite (Pos2Z.inj_xO p), Z.pow_twice_r. reflexivity.
  - rewrite shr_1_m by assumption. reflexivity.
Qed.
Lemma shr_positive : forall m l e n, 0 < m -> n <= Zpos (digits2_pos (Z.to_pos m)) - 1 -> 0 < shr_m (fst (shr (shr_record_of_loc m l) e n)).
Proof.
  intros m l e n Hm Hn. assert (Em : shr_m (shr_record_of_loc m l) = m) by (destruct l as [|[]]; reflexivity).
  destruct n as [|n|n]; cbn [shr fst]; [rewrite Em; lia| |rewrite Em; lia]. rewrite iter_m by lia. rewrite Em.
  apply Z.div_str_pos. split; [lia|]. pose proof (digits_bound (Z.to_pos m)) as D. rewrite Z2Pos.id in D by lia.
  eapply Z.le_trans; [|exact D]. apply Z.pow_le_mono_r; lia.
Qed.
Lemma shr_fexp_positive : forall m e l, 0 < m -> -1000 <= e -> 0 < shr_m (fst (shr_fexp prec64 emax64 m e l)) /\ e <= snd (shr_fexp prec64 emax64 m e l).
Proof.
  intros m e l Hm He. unfold shr_fexp. split.
  - apply shr_positive; [exact Hm|]. unfold fexp, emin, prec64, emax64. destruct m as [|p|p]; [lia| |lia]. cbn [Zdigits2 Z.to_pos]. lia.
  - match goal with |- context [shr ?r e ?n] => generalize r, n end. intros r [|n|n]; cbn [shr snd]; lia.
Qed.
Lemma round_positive : forall m l, 0 < m -> 0 < round_nearest_even m l.
Proof. intros m [|[]] H; cbn; [exact H|destruct (Z.even m); lia|lia|lia]. Qed.
Lemma binary_round_not_zero : forall s b p, binary_round prec64 emax64 s p 0 <> S754_zero b.
Proof.
  intros s b p. unfold binary_round. destruct (shl_align p 0 _) as [m e] eqn:A.
  assert (He : -1000 <= e).
  { unfold shl_align in A. destruct (fexp prec64 emax64 _ - 0) as [|n|n] eqn:N; injection A as <- <-; [lia|lia|].
    unfold fexp, emin, prec64, emax64 in *. lia. }
  clear A. unfold binary_round_aux. destruct (shr_fexp_positive (Zpos m) e loc_Exact eq_refl He) as [H1 H2].
  destruct (shr_fexp prec64 emax64 (Zpos m) e loc_Exact) as [r e1]. cbn [fst snd] in *.
  pose proof (round_positive _ (loc_of_shr_record r) H1) as H3.
  destruct (shr_fexp_positive (round_nearest_even (shr_m r) (loc_of_shr_record r)) e1 loc_Exact H3 ltac:(lia)) as [H4 _].
  destruct (shr_fexp prec64 emax64 (round_nearest_even (shr_m r) (loc_of_shr_record r)) e1 loc_Exact) as [r' e2]. cbn [fst] in H4.
  destruct (shr_m r'); [lia| |lia]. destruct (_ <=? _); discriminate.
Qed.
Theorem f64_not_zero : forall z, z <> 0 -> eqb (n := NumF64) zero (of_Z z) = false.
Proof.
  intros z Hz. change (SFeqb (S754_zero false) (f64_of_Z z) = false). unfold f64_of_Z, binary_normalize.
  destruct z as [|p|p]; [congruence| |].
  - pose proof (fun b => binary_round_not_zero false b p) as H. destruct (binary_round prec64 emax64 false p 0) as [b|[]| |[] m e]; try reflexivity. exfalso. apply (H b eq_refl).
  - pose proof (fun b => binary_round_not_zero true b p) as H. destruct (binary_round prec64 emax64 true p 0) as [b|[]| |[] m e]; try reflexivity. exfalso. apply (H b eq_refl).
Qed.
