(** The page number placeholder. *)
From Coq Require Import Lia.
From Verif Require Import GoStr GoFmt GoStrFacts PageSpec.
From Verif Require TextSpec.
Local Open Scope nat_scope.

Lemma joined_cons : forall sep p c parts, joined sep ((c :: p) :: parts) = c :: joined sep (p :: parts).
Proof. intros sep p c [|q parts]; reflexivity. Qed.
Lemma has_prefix_split : forall p s, has_prefix p s = true -> exists t, s = p ++ t.
Proof.
  induction p as [|x p IH]; intros s H; [exists s; reflexivity|]. destruct s as [|y s]; [discriminate H|]. cbn in H. apply andb_prop in H as [H1 H2].
  apply Ascii.eqb_eq in H1. subst y. destruct (IH s H2) as (t & ->). exists t. reflexivity.
Qed.
Lemma has_prefix_app : forall p t, has_prefix p (p ++ t) = true.
Proof. induction p as [|x p IH]; intros t; [reflexivity|]. cbn. rewrite Ascii.eqb_refl. apply IH. Qed.
(** The parts are built from left to right; [p] is the first of them. *)
Lemma replace_go_parts : forall old new, old <> [] -> forall n s, List.length s <= n ->
  exists p parts, s = joined old (p :: parts) /\ replace_go old new 0 s = joined new (p :: parts) /\ Forall (fun p => ~ TextSpec.occurs old p) (p :: parts) /\
    (forall t, ~ (exists u, p ++ t = old ++ u /\ p <> [] /\ List.length old <= List.length p)).
Proof.
  intros old new Ho. induction n as [|n IH]; intros s Hn.
  - destruct s; [|cbn in Hn; lia]. exists [], []. repeat split; [constructor; [|constructor]|].
    + intros (a & b & E). destruct a; [|discriminate E]. destruct old; [congruence|discriminate E].
    + intros t (u & _ & K & _). congruence.
  - destruct s as [|c s]; [apply IH; cbn; lia|]. destruct (has_prefix old (c :: s)) eqn:E.
    + destruct (has_prefix_split _ _ E) as (t & Et). rewrite Et in *. rewrite replace_go_match by exact Ho.
      destruct (IH t) as (p & parts & E1 & E2 & E3 & _). { rewrite app_length in Hn. destruct old; [congruence|cbn in Hn; lia]. }
      exists [], (p :: parts). repeat split; [cbn [joined app]; rewrite E1 at 1; reflexivity|cbn [joined app]; rewrite E2; reflexivity| |].
      * constructor; [|exact E3]. intros (a & b & Ea). destruct a; [|discriminate Ea]. destruct old; [congruence|discriminate Ea].
      * intros t' (u & _ & K & _). congruence.
    + rewrite replace_go_nomatch by exact E. destruct (IH s) as (p & parts & E1 & E2 & E3 & E4); [cbn in Hn; lia|].
      assert (Hpre : forall t, c :: p ++ t = c :: s -> forall u, ~ c :: p = old ++ u).
      { intros t Et u Eu. rewrite <- Et in E. change (c :: p ++ t) with ((c :: p) ++ t) in E. rewrite Eu, <- app_assoc, has_prefix_app in E. discriminate E. }
      assert (Hs : exists t, p ++ t = s).
      { rewrite E1. destruct parts; [exists []; apply app_nil_r|eexists; reflexivity]. }
      destruct Hs as (t0 & Ht0).
      exists (c :: p), parts. repeat split; [rewrite joined_cons, E1; reflexivity|rewrite joined_cons, E2; reflexivity| |].
      * inversion E3 as [|? ? N1 N2]; subst. constructor; [|exact N2]. intros (a & b & Ea). destruct a as [|x a]; cbn in Ea.
        -- apply (Hpre t0 ltac:(rewrite Ht0; reflexivity) b). exact Ea.
        -- injection Ea as _ Ea. apply N1. exists a, b. exact Ea.
      * intros t (u & Eu & _ & Hl). apply (Hpre t0 ltac:(rewrite Ht0; reflexivity) (skipn (List.length old) (c :: p))).
        rewrite <- (firstn_skipn (List.length old) (c :: p)) at 1. f_equal. assert (K := f_equal (firstn (List.length old)) Eu).
        rewrite firstn_app, firstn_app, Nat.sub_diag, firstn_all in K. replace (List.length old - List.length (c :: p)) with 0 in K by lia.
        cbn [firstn] in K. rewrite !app_nil_r in K. exact K.
Qed.
Lemma replace_all_replaced : forall s old new, old <> [] -> replaced old new s (replace_all s old new).
Proof.
  intros s old new Ho. destruct (replace_go_parts old new Ho (List.length s) s (le_n _)) as (p & parts & E1 & E2 & E3 & _).
  exists (p :: parts). split; [exact E1|]. split; [|exact E3]. unfold replace_all. destruct (beqb old new) eqn:E.
  - apply beqb_eq in E. rewrite <- E. exact E1.
  - destruct old; [congruence|]. exact E2.
Qed.

(** ** Decimal numbers *)
Lemma digit_ok : forall d, (d < 10)%N -> digit_value (digit d) = Some d.
Proof. intros d H. assert (K : (d = 0 \/ d = 1 \/ d = 2 \/ d = 3 \/ d = 4 \/ d = 5 \/ d = 6 \/ d = 7 \/ d = 8 \/ d = 9)%N) by lia. repeat (destruct K as [->|K]; [reflexivity|]). subst. reflexivity. Qed.
Lemma value_app : forall a b acc v, value_from acc a = Some v -> value_from acc (a ++ b) = value_from v b.
Proof.
  induction a as [|c a IH]; intros b acc v H; cbn in *; [injection H as ->; reflexivity|]. destruct (digit_value c); [|discriminate H]. apply IH. exact H.
Qed.
Lemma digits_value : forall fuel n, (n < 10 ^ N.of_nat fuel)%N -> 0 < fuel -> value_from 0 (rev (digits_rev fuel n)) = Some n /\ rev (digits_rev fuel n) <> [] /\
  ((10 <= n)%N -> forall t, rev (digits_rev fuel n) <> "0"%char :: t) /\ ((n < 10)%N -> rev (digits_rev fuel n) = [digit n]).
Proof.
  induction fuel as [|fuel IH]; intros n Hn Hf; [lia|]. cbn [digits_rev]. destruct (N.ltb_spec n 10) as [L|L].
  - cbn. rewrite (digit_ok n L). repeat split; [discriminate|lia].
  - cbn [rev]. destruct fuel as [|fuel]; [cbn in Hn; lia|]. destruct (IH (n / 10)%N) as (A & B & C & D).
    { rewrite Nat2N.inj_succ, N.pow_succ_r' in Hn. apply N.div_lt_upper_bound; [discriminate|exact Hn]. } { lia. }
    rewrite (value_app _ _ _ _ A). cbn [value_from]. rewrite digit_ok by (apply N.mod_lt; discriminate). split; [f_equal; symmetry; apply N.div_mod; discriminate|].
    split; [intro K; destruct (rev (digits_rev (S fuel) (n / 10))); discriminate K|]. split; [|lia]. intros _ t K.
    destruct (rev (digits_rev (S fuel) (n / 10))) as [|c u] eqn:E; [congruence|]. cbn in K. injection K as -> _.
    destruct (N.leb_spec 10 (n / 10)) as [G|G]; [exact (C G u eq_refl)|]. specialize (D G). injection D as D _.
    assert (H1 : (1 <= n / 10)%N) by (apply N.div_le_lower_bound; [discriminate|lia]).
    assert (K := digit_ok (n / 10) G). rewrite <- D in K. cbn in K. injection K as K. lia.
Qed.
Lemma itoa_N_decimal : forall n, decimal_N n (itoa_N n).
Proof.
  intros n. unfold itoa_N. destruct (digits_value (S (N.to_nat (N.size n))) n) as (A & B & C & D).
  - assert (K := N.size_gt n). rewrite Nat2N.inj_succ, N2Nat.id.
    assert ((2 ^ N.size n <= 10 ^ N.size n)%N) by (apply N.pow_le_mono_l; lia).
    rewrite N.pow_succ_r'. lia.
  - lia.
  - split; [exact B|]. split; [exact A|]. intros t E. destruct (N.leb_spec 10 n) as [G|G]; [exfalso; exact (C G t E)|]. rewrite (D G) in E. injection E as _ <-. reflexivity.
Qed.
Lemma itoa_decimal : forall z, decimal z (itoa z).
Proof.
  intros [|p|p]; unfold decimal; cbn [Z.ltb Z.compare].
  - apply itoa_N_decimal.
  - apply itoa_N_decimal.
  - eexists. split; [reflexivity|]. apply itoa_N_decimal.
Qed.
