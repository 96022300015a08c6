(** Line widths in binary64 (C46, C49). *)
From Coq Require Import ZArith Reals Lia Lra Psatz Floats.SpecFloat.
From Flocq Require Import Core.Core.
From Verif Require Import GoStr Num Style Class Instr Engine Layout Grid Table Lines Proc EngineFacts LinesSpec LinesFacts LinesLink LinesThms LinesWit FloatSpec FloatBase FloatRel FloatTable.
From Coq Require Import Rdefinitions.
Local Open Scope R_scope.

Lemma big_sum : 2 * (1048577 * 2 ^ 200) + 2 ^ 201 <= 2 ^ 1000.
Proof.
  replace 1000%nat with (200 + 800)%nat by reflexivity. replace 201%nat with (200 + 1)%nat by reflexivity. rewrite !pow_add. assert (P := pow2_pos 200). assert (2 ^ 40 <= 2 ^ 800) by (apply Rle_pow; [lra|lia]).
  assert (2 * 1048577 + 2 <= 2 ^ 40) by (simpl; lra). replace (2 * (1048577 * 2 ^ 200) + 2 ^ 200 * 2 ^ 1) with (2 ^ 200 * (2 * 1048577 + 2)) by (simpl (2 ^ 1); ring). apply Rmult_le_compat_l; [apply Rlt_le; exact P|]. eapply Rle_trans; [|exact H]. assumption.
Qed.
(** Sums from left to right. *)
Lemma sum_float : forall (l : list NumF64) (a : NumF64) S (k : nat), (forall r, In r l -> asked r) -> fin a -> 0 <= S -> Rabs (fval a - S) <= 2 * INR k * u * S ->
  (Z.of_nat (k + List.length l) <= 2 ^ 20)%Z -> S <= INR k * 2 ^ 200 ->
  let a' := fold_left add l a in
  fin a' /\ Rabs (fval a' - (S + sumR (map fval l))) <= 2 * INR (k + List.length l) * u * (S + sumR (map fval l)).
Proof.
  assert (U := u_small). induction l as [|r l IH]; intros a S k Hl Fa HS HE Hk Hb a'; subst a'.
  - cbn [fold_left map sumR fold_right List.length]. rewrite Nat.add_0_r, Rplus_0_r. split; [exact Fa|exact HE].
  - destruct (Hl r (or_introl eq_refl)) as [[Fr Br] Pr]. assert (Hl' : forall x, In x l -> asked x) by (intros x Hx; apply Hl; right; exact Hx).
    cbn [fold_left map sumR fold_right]. fold (sumR (map fval l)). cbn [List.length] in Hk.
    assert (Bk : INR k <= 1048576) by (rewrite INR_IZR_INZ; apply IZR_le; lia). assert (Pk := pos_INR k). rewrite (Rabs_pos_eq _ Pr) in Br.
    assert (HU : Rabs (fval a) <= 2 * S). { replace (fval a) with ((fval a - S) + S) by ring. eapply Rle_trans; [apply Rabs_triang|]. rewrite (Rabs_pos_eq S) by exact HS. assert (2 * INR k * u <= 1) by nra. replace (2 * INR k * u * S) with ((2 * INR k * u) * S) in HE by ring. assert (2 * INR k * u * S <= 1 * S) by (apply Rmult_le_compat_r; assumption). lra. }
    assert (P200 := pow2_pos 200). assert (Big := big_sum). assert (P201 := pow2_pos 201).
    assert (HS2 : S <= 1048576 * 2 ^ 200) by (eapply Rle_trans; [exact Hb|]; apply Rmult_le_compat_r; lra).
    destruct (add_err a r Fa Fr) as (Fs & e & He & Ee).
    { eapply Rle_trans; [apply Rabs_triang|]. rewrite (Rabs_pos_eq (fval r)) by exact Pr. lra. }
    replace (S + (fval r + sumR (map fval l))) with (S + fval r + sumR (map fval l)) by ring. replace (k + List.length (r :: l))%nat with (Datatypes.S k + List.length l)%nat by (cbn; lia).
    apply IH; [exact Hl'|exact Fs|lra| |lia|rewrite S_INR; nra].
    rewrite Ee. replace ((fval a + fval r) * (1 + e) - (S + fval r)) with ((fval a - S) * (1 + e) + (S + fval r) * e) by ring.
    eapply Rle_trans; [apply Rabs_triang|]. rewrite !Rabs_mult. rewrite (Rabs_pos_eq (S + fval r)) by lra.
    assert (Rabs (1 + e) <= 1 + u). { eapply Rle_trans; [apply Rabs_triang|]. rewrite Rabs_R1. lra. }
    assert (Rabs (fval a - S) * Rabs (1 + e) <= (2 * INR k * u * S) * (1 + u)) by (apply Rmult_le_compat; try apply Rabs_pos; assumption).
    assert ((S + fval r) * Rabs e <= (S + fval r) * u) by (apply Rmult_le_compat_l; lra). rewrite S_INR.
    assert (2 * INR k * u * S * (1 + u) <= 2 * INR k * u * (S + fval r) + u * (S + fval r)); [|nra].
    assert (2 * INR k * u <= 1) by nra. assert (0 <= INR k * u) by (apply Rmult_le_pos; lra). assert (2 * INR k * u * S * u <= 1 * (S * u)) by (replace (2 * INR k * u * S * u) with (2 * INR k * u * (S * u)) by ring; apply Rmult_le_compat_r; [apply Rmult_le_pos; lra|assumption]).
    assert (INR k * u * S <= INR k * u * (S + fval r)) by (apply Rmult_le_compat_l; lra). nra.
Qed.
Lemma total_float : forall f (l : list (frag NumF64)), (forall x, In x l -> asked (f x)) -> (Z.of_nat (List.length l) <= 2 ^ 20)%Z ->
  let S := sumR (map (fun x => fval (f x)) l) in
  fin (sum_of f l) /\ Rabs (fval (sum_of f l) - S) <= 2 * INR (List.length l) * u * S /\ 0 <= S <= INR (List.length l) * 2 ^ 200 /\ fval (sum_of f l) <= 2 * S /\ 0 <= fval (sum_of f l).
Proof.
  intros f l Hl Hn S. destruct zero_ok as [Z1 Z2]. assert (U := u_small). destruct (sum_float (map f l) zero 0 0) as [A B].
  - intros r Hr. apply in_map_iff in Hr as (x & <- & Hx). exact (Hl x Hx).
  - exact Z1.
  - lra.
  - rewrite Z2, Rminus_0_r, Rabs_R0. cbn [INR]. lra.
  - rewrite map_length. exact Hn.
  - cbn [INR]. lra.
  - assert (E : fold_left add (map f l) (zero : NumF64) = sum_of f l). { unfold sum_of. clear. generalize (zero : NumF64). induction l as [|x l IH]; intros z; [reflexivity|]. cbn [map fold_left]. apply IH. }
    rewrite E in A, B. rewrite map_map, map_length, Rplus_0_l, Nat.add_0_l in B. fold S in B.
    assert (P : 0 <= S <= INR (List.length l) * 2 ^ 200).
    { unfold S. clear - Hl. induction l as [|x l IH]; [cbn; lra|]. cbn [map sumR fold_right List.length]. fold (sumR (map (fun x => fval (f x)) l)). destruct (Hl x (or_introl eq_refl)) as [[_ X1] X2]. rewrite (Rabs_pos_eq _ X2) in X1. assert (I := IH (fun y Hy => Hl y (or_intror Hy))). rewrite S_INR. lra. }
    assert (Bk : INR (List.length l) <= 1048576) by (rewrite INR_IZR_INZ; apply IZR_le; lia). assert (Pk := pos_INR (List.length l)).
    assert (Q : 2 * INR (List.length l) * u * S <= 1 * S) by (apply Rmult_le_compat_r; [lra|nra]). apply Rabs_le_inv in B as B'. split; [exact A|]. split; [exact B|]. split; [exact P|]. lra.
Qed.

Section Lines.
Context {eng : Engine NumF64}.
Variable mut : Styled NumF64 -> Styles NumF64 -> Styles NumF64.
Variable hyph : bytes -> list bytes.
Local Notation PS := (PS NumF64 eng).
(** The exact sum, if the computed one is at most about the width. *)
Lemma exact_sum : forall n S T W, 0 <= S -> 0 <= W -> INR n <= 1048576 -> Rabs (T - S) <= 2 * INR n * u * S -> T <= W * (1 + / 2 ^ 51) -> S <= W * (1 + INR (n + 1) * / 2 ^ 50).
Proof.
  intros n S T W HS HW Hn HE HT. assert (U := u_small). assert (E51 : / 2 ^ 51 = 4 * u) by (rewrite u_val; simpl; lra). assert (E50 : / 2 ^ 50 = 8 * u) by (rewrite u_val; simpl; lra).
  rewrite E51 in HT. rewrite E50. apply Rabs_le_inv in HE. assert (Pn := pos_INR n). rewrite plus_INR. cbn [INR]. set (k := INR n) in *.
  assert (A : S * (1 - 2 * k * u) <= W * (1 + 4 * u)) by nra. assert (Hk : k * u <= 1 / 4) by nra. assert (0 <= k * u) by (apply Rmult_le_pos; lra).
  apply (Rmult_le_reg_r (1 - 2 * k * u)); [lra|]. eapply Rle_trans; [exact A|]. rewrite Rmult_assoc. apply Rmult_le_compat_l; [exact HW|].
  set (v := k * u) in *. replace ((1 + (k + 1) * (8 * u)) * (1 - 2 * k * u)) with ((1 + 8 * v + 8 * u) * (1 - 2 * v)) by (unfold v; ring). nra.
Qed.
Lemma line_float : forall width (gs : list (group NumF64)) ts, broken_into hyph width ts gs -> asked width ->
  forall g, In g gs -> (2 <= List.length (g_frags g))%nat -> (Z.of_nat (List.length (g_frags g)) <= 2 ^ 20)%Z -> (forall f, In f (g_frags g) -> asked (frag_width f)) ->
  fin (total (g_frags g)) /\ fval (total (g_frags g)) <= fval width * (1 + / 2 ^ 51) /\
  sumR (map (fun f => fval (frag_width f)) (g_frags g)) <= fval width * (1 + INR (List.length (g_frags g) + 1) * / 2 ^ 50).
Proof.
  intros width gs ts B [[Fw Bw] Pw] g Hg H2 Hn Ha. assert (U := u_small). rewrite (Rabs_pos_eq _ Pw) in Bw.
  destruct (total_float frag_width (g_frags g) Ha Hn) as (T1 & T2 & T3 & _). fold (total (g_frags g)) in *.
  assert (Bk : INR (List.length (g_frags g)) <= 1048576) by (rewrite INR_IZR_INZ; apply IZR_le; lia).
  assert (G : fval (total (g_frags g)) <= fval width * (1 + / 2 ^ 51)); [|split; [exact T1|]; split; [exact G|]; exact (exact_sum _ _ _ _ (proj1 T3) Pw Bk T2 G)].
  destruct (two_frags _ H2) as (pre & f & E & Hp). destruct B as [B1 B2 B3]. destruct (frag_in_group _ _ _ _ B2 g pre _ [] Hg E) as (p & Hf).
  assert (E51 : / 2 ^ 51 = 4 * u) by (rewrite u_val; simpl; lra). rewrite E51.
  rewrite E in *. unfold total. rewrite total_snoc. fold (total pre). unfold total in T1. rewrite total_snoc in T1. fold (total pre) in T1.
  assert (Hpre : forall x, In x pre -> asked (frag_width x)) by (intros x Hx; apply Ha; apply in_or_app; left; exact Hx).
  assert (Hn' : (Z.of_nat (List.length pre) <= 2 ^ 20)%Z) by (rewrite app_length in Hn; lia).
  destruct (total_float frag_width pre Hpre Hn') as (R1 & _ & R3 & R4 & R5). fold (total pre) in *.
  destruct f as [st w m|st w a b m|st r m].
  - assert (K : overflows width (total pre) w m = false) by (destruct pre as [|f0 pre]; [congruence|exact Hf]). unfold overflows in K. cbn [frag_width] in *.
    rewrite (leb_ok _ _ Fw T1) in K. apply Rle_bool_false_inv in K || (destruct (Rle_bool_spec (fval width) (fval (add (total pre) (m (sp :: w))))) as [K'|K']; [discriminate K|]). nra.
  - destruct Hf as (_ & _ & Hf & _). unfold head_fits in Hf. cbn [frag_width] in *. destruct (Ha (Head st w a b m) ltac:(apply in_or_app; right; left; reflexivity)) as [[Fm Bm] Pm]. cbn [frag_width] in *. rewrite (Rabs_pos_eq _ Pm) in Bm.
    assert (Bk' : INR (List.length pre) <= 1048576) by (rewrite INR_IZR_INZ; apply IZR_le; lia). assert (P200 := pow2_pos 200). assert (Big := big_sum). assert (P201 := pow2_pos 201).
    assert (R6 : fval (total pre) <= 2 * (1048576 * 2 ^ 200)) by nra.
    destruct (sub_err width (total pre) Fw R1) as (Fs & e & He & Es). { apply Rabs_le. lra. }
    destruct (add_err (total pre) (m (head_text a)) R1 Fm) as (Fa & d & Hd & Ed). { apply Rabs_le. lra. }
    rewrite (leb_ok _ _ Fm Fs) in Hf. destruct (Rle_bool_spec (fval (m (head_text a))) (fval (sub width (total pre)))) as [K|K]; [|discriminate Hf]. rewrite Es in K. rewrite Ed.
    apply Rabs_le_inv in He, Hd. set (t := fval (total pre)) in *. set (v := fval (m (head_text a))) in *. set (W := fval width) in *.
    assert (0 <= W - t). { apply Rnot_lt_le. intro N. assert ((W - t) * (1 + e) < 0) by (apply Ropp_lt_cancel; rewrite Ropp_0, Ropp_mult_distr_l; apply Rmult_lt_0_compat; lra). lra. }
    assert (t + v <= W * (1 + u)). { assert ((W - t) * (1 + e) <= (W - t) * (1 + u)) by (apply Rmult_le_compat_l; lra). nra. }
    assert ((t + v) * (1 + d) <= (t + v) * (1 + u)) by (apply Rmult_le_compat_l; lra). assert ((t + v) * (1 + u) <= W * (1 + u) * (1 + u)) by (apply Rmult_le_compat_r; lra).
    assert (W * (1 + u) * (1 + u) <= W * (1 + 4 * u)) by (rewrite Rmult_assoc; apply Rmult_le_compat_l; [exact Pw|nra]). lra.
  - destruct Hf as (-> & _). congruence.
Qed.
End Lines.
Section Both.
Context {eng : Engine NumF64}.
Variable mut : Styled NumF64 -> Styles NumF64 -> Styles NumF64.
Variable hyph : bytes -> list bytes.
Local Notation PS := (PS NumF64 eng).
Lemma block_fits_float : page_stable (eng:=eng) -> forall iss width sty (s : PS), moderate width -> 0 <= fval width ->
  let '(lines, _) := textLinesHyphenated mut hyph iss width sty s in
  exists gs, Forall2 is_block_line lines gs /\
    broken_into hyph width (tokens (eng:=eng) mut true (currentPage (ps_eng s)) sty iss (ps_eng s)) gs /\
    Forall2 (fun l g => (2 <= List.length (l_items l))%nat -> (Z.of_nat (List.length (l_items l)) <= 2 ^ 20)%Z ->
      (forall f, In f (g_frags g) -> moderate (frag_width f) /\ 0 <= fval (frag_width f)) ->
      fin (l_width l) /\ fval (l_width l) <= fval width * (1 + / 2 ^ 51) /\
      sumR (map (fun f => fval (frag_width f)) (g_frags g)) <= fval width * (1 + INR (List.length (l_items l) + 1) * / 2 ^ 50)) lines gs.
Proof.
  intros Hp iss width sty s Hw Pw. assert (M := marks mut hyph Hp iss width sty s). destruct (textLinesHyphenated mut hyph iss width sty s) as [lines s']. destruct M as (gs & L & B & _).
  exists gs. split; [exact L|]. split; [exact B|].
  assert (G : forall l g, In g gs -> is_block_line l g -> (2 <= List.length (l_items l))%nat -> (Z.of_nat (List.length (l_items l)) <= 2 ^ 20)%Z ->
      (forall f, In f (g_frags g) -> moderate (frag_width f) /\ 0 <= fval (frag_width f)) ->
      fin (l_width l) /\ fval (l_width l) <= fval width * (1 + / 2 ^ 51) /\
      sumR (map (fun f => fval (frag_width f)) (g_frags g)) <= fval width * (1 + INR (List.length (l_items l) + 1) * / 2 ^ 50)).
  { intros l g Hg [[L1 L2] _]. rewrite L2, L1, items_length. intros H2 Hn Ha. exact (line_float hyph width gs _ B (conj Hw Pw) g Hg H2 Hn Ha). }
  clear B. induction L as [|l g lines gs Hl L IH]; constructor; [exact (G l g (or_introl eq_refl) Hl)|]. apply IH. intros l' g' Hg'. apply G. right. exact Hg'.
Qed.
Lemma lines_fit_float : page_stable (eng:=eng) -> forall iss width sty (s : PS), moderate width -> 0 <= fval width ->
  let '(lines, _) := textLines mut iss width sty s in
  exists gs, Forall2 is_line lines gs /\
    broken_into (fun _ => []) width (tokens (eng:=eng) mut false (currentPage (ps_eng s)) sty iss (ps_eng s)) gs /\
    Forall2 (fun l g => (2 <= List.length (l_items l))%nat -> (Z.of_nat (List.length (l_items l)) <= 2 ^ 20)%Z ->
      (forall f, In f (g_frags g) -> moderate (frag_width f) /\ 0 <= fval (frag_width f)) ->
      fin (l_width l) /\ fval (l_width l) < fval width /\
      sumR (map (fun f => fval (frag_width f)) (g_frags g)) <= fval width * (1 + INR (List.length (l_items l) + 1) * / 2 ^ 50)) lines gs.
Proof.
  intros Hp iss width sty s Hw Pw. assert (M := lines_rules mut Hp iss width sty s). assert (N := lines_fit mut Hp iss width sty s). destruct (textLines mut iss width sty s) as [lines s']. destruct M as (gs & L & B).
  exists gs. split; [exact L|]. split; [exact B|].
  assert (G : forall l g, In l lines -> In g gs -> is_line l g -> (2 <= List.length (l_items l))%nat -> (Z.of_nat (List.length (l_items l)) <= 2 ^ 20)%Z ->
      (forall f, In f (g_frags g) -> moderate (frag_width f) /\ 0 <= fval (frag_width f)) ->
      fin (l_width l) /\ fval (l_width l) < fval width /\
      sumR (map (fun f => fval (frag_width f)) (g_frags g)) <= fval width * (1 + INR (List.length (l_items l) + 1) * / 2 ^ 50)).
  { intros l g Hl Hg [L1 L2] H2. assert (K := N l Hl H2). revert H2. rewrite L2 in K. rewrite L2, L1, items_length. intros H2 Hn Ha. destruct (line_float (fun _ => []) width gs _ B (conj Hw Pw) g Hg H2 Hn Ha) as (A & _ & C).
    split; [exact A|]. split; [|exact C]. rewrite (leb_ok _ _ (proj1 Hw) A) in K. destruct (Rle_bool_spec (fval width) (fval (total (g_frags g)))) as [K'|K']; [discriminate K|exact K']. }
  clear B N. induction L as [|l g lines gs Hl L IH]; constructor; [exact (G l g (or_introl eq_refl) (or_introl eq_refl) Hl)|]. apply IH. intros l' g' Hl' Hg'. apply G; right; assumption.
Qed.
End Both.
