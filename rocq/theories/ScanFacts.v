(** Proofs about colours and quadruples. *)
From Coq Require Import Lia.
From Verif Require Import GoStr GoStrFacts Utf8 Utf8Facts GoFmt Scan Style StyleSpec.

(** ** Colours *)
Lemma nth_error_lt {A} (l : list A) n x : nth_error l n = Some x -> (n < List.length l)%nat.
Proof. intros H. apply nth_error_Some. congruence. Qed.
Definition hexchars : list (ascii * nat) :=
  combine ($"0123456789abcdef") (seq 0 16) ++ combine ($"0123456789ABCDEF") (seq 0 16).
Lemma hex_digit_ok c n : hex_digit c = Some n <-> hex_value c (N.to_nat n).
Proof.
  unfold hex_value. split.
  - intros H. destruct c as [b0 b1 b2 b3 b4 b5 b6 b7].
    destruct b0, b1, b2, b3, b4, b5, b6, b7; vm_compute in H;
      first [discriminate H | injection H as <-; vm_compute; solve [left; reflexivity | right; reflexivity]].
  - intros H. assert (Hn : (N.to_nat n < 16)%nat).
    { destruct H as [H|H]; apply nth_error_lt in H; exact H. }
    assert (Hc : exists k, n = N.of_nat k /\ (k < 16)%nat) by (exists (N.to_nat n); split; [lia|exact Hn]).
    destruct Hc as (k & -> & Hk). rewrite Nnat.Nat2N.id in H. clear Hn.
    do 16 (destruct k as [|k]; [destruct H as [H|H]; injection H as <-; reflexivity|]). lia.
Qed.
Lemma hex_digit_nat c n : hex_value c n -> hex_digit c = Some (N.of_nat n).
Proof. intros H. apply hex_digit_ok. rewrite Nnat.Nat2N.id. exact H. Qed.
Lemma hex_value_lt c n : hex_value c n -> (n < 16)%nat.
Proof. intros [H|H]; apply nth_error_lt in H; exact H. Qed.
Lemma hex_hash n : ~ hex_value "#"%char n.
Proof. intros H. apply hex_digit_nat in H. discriminate. Qed.

Lemma rgb_of (n1 n2 n3 n4 n5 n6 : nat) : (n1 < 16)%nat -> (n2 < 16)%nat -> (n3 < 16)%nat -> (n4 < 16)%nat -> (n5 < 16)%nat -> (n6 < 16)%nat ->
  let n := ((((((0 * 16 + N.of_nat n1) * 16 + N.of_nat n2) * 16 + N.of_nat n3) * 16 + N.of_nat n4) * 16 + N.of_nat n5) * 16 + N.of_nat n6)%N in
  mkRGB (Z.of_N (n / 65536)%N) (Z.of_N ((n / 256) mod 256)%N) (Z.of_N (n mod 256)%N) =
  mkRGB (pair_value n1 n2) (pair_value n3 n4) (pair_value n5 n6).
Proof.
  intros H1 H2 H3 H4 H5 H6 n. unfold pair_value.
  assert (E : (n = 65536 * (16 * N.of_nat n1 + N.of_nat n2) + 256 * (16 * N.of_nat n3 + N.of_nat n4) + (16 * N.of_nat n5 + N.of_nat n6))%N) by (unfold n; lia).
  rewrite E. clearbody n. clear E.
  set (a := (16 * N.of_nat n1 + N.of_nat n2)%N). set (b := (16 * N.of_nat n3 + N.of_nat n4)%N). set (c := (16 * N.of_nat n5 + N.of_nat n6)%N).
  assert (Ha : (a < 256)%N) by (unfold a; lia). assert (Hb : (b < 256)%N) by (unfold b; lia). assert (Hc : (c < 256)%N) by (unfold c; lia).
  assert (D1 : ((65536 * a + 256 * b + c) / 65536 = a)%N) by (symmetry; apply (N.div_unique _ _ _ (256 * b + c)); lia).
  assert (D2 : ((65536 * a + 256 * b + c) / 256 = 256 * a + b)%N) by (symmetry; apply (N.div_unique _ _ _ c); lia).
  assert (D3 : ((256 * a + b) mod 256 = b)%N) by (symmetry; apply (N.mod_unique _ _ a); lia).
  assert (D4 : ((65536 * a + 256 * b + c) mod 256 = c)%N) by (symmetry; apply (N.mod_unique _ _ (256 * a + b)); lia).
  rewrite D1, D2, D3, D4. unfold a, b, c. f_equal; lia.
Qed.

Lemma rgb_iff v c : unmarshal_rgb v = Some c <->
  exists d1 d2 d3 d4 d5 d6 n1 n2 n3 n4 n5 n6,
    (v = [d1; d2; d3; d4; d5; d6] \/ v = ["#"%char; d1; d2; d3; d4; d5; d6]) /\
    hex_value d1 n1 /\ hex_value d2 n2 /\ hex_value d3 n3 /\ hex_value d4 n4 /\ hex_value d5 n5 /\ hex_value d6 n6 /\
    c = mkRGB (pair_value n1 n2) (pair_value n3 n4) (pair_value n5 n6).
Proof.
  split.
  - unfold unmarshal_rgb. intros H.
    set (s := if has_prefix ($"#") v then tl v else v) in H.
    assert (Hs : v = s \/ v = "#"%char :: s).
    { unfold s. destruct (has_prefix ($"#") v) eqn:E; [|left; reflexivity].
      apply has_prefix_spec in E as [t ->]. right. reflexivity. }
    clearbody s.
    destruct (Nat.eqb (List.length s) 6) eqn:E; [|discriminate]. apply Nat.eqb_eq in E.
    destruct s as [|d1 [|d2 [|d3 [|d4 [|d5 [|d6 [|? ?]]]]]]]; try discriminate E. clear E.
    cbn [parse_hex] in H.
    destruct (hex_digit d1) as [n1|] eqn:E1; [|discriminate]. destruct (hex_digit d2) as [n2|] eqn:E2; [|discriminate].
    destruct (hex_digit d3) as [n3|] eqn:E3; [|discriminate]. destruct (hex_digit d4) as [n4|] eqn:E4; [|discriminate].
    destruct (hex_digit d5) as [n5|] eqn:E5; [|discriminate]. destruct (hex_digit d6) as [n6|] eqn:E6; [|discriminate].
    apply hex_digit_ok in E1, E2, E3, E4, E5, E6.
    exists d1, d2, d3, d4, d5, d6, (N.to_nat n1), (N.to_nat n2), (N.to_nat n3), (N.to_nat n4), (N.to_nat n5), (N.to_nat n6).
    split; [exact Hs|]. repeat (split; [assumption|]).
    apply hex_value_lt in E1, E2, E3, E4, E5, E6.
    rewrite <- rgb_of by assumption. rewrite !Nnat.N2Nat.id. congruence.
  - intros (d1 & d2 & d3 & d4 & d5 & d6 & n1 & n2 & n3 & n4 & n5 & n6 & Hv & H1 & H2 & H3 & H4 & H5 & H6 & ->).
    assert (Hs : (if has_prefix ($"#") v then tl v else v) = [d1; d2; d3; d4; d5; d6]).
    { destruct Hv as [-> | ->]; [|reflexivity].
      destruct (has_prefix ($"#") [d1; d2; d3; d4; d5; d6]) eqn:E; [|reflexivity].
      apply has_prefix_spec in E as [t E]. injection E as -> _. exfalso; exact (hex_hash _ H1). }
    unfold unmarshal_rgb. rewrite Hs. cbn [List.length Nat.eqb parse_hex].
    rewrite (hex_digit_nat _ _ H1), (hex_digit_nat _ _ H2), (hex_digit_nat _ _ H3), (hex_digit_nat _ _ H4), (hex_digit_nat _ _ H5), (hex_digit_nat _ _ H6).
    cbv zeta. f_equal. apply rgb_of; eapply hex_value_lt; eassumption.
Qed.
Lemma pair_component d1 d2 n1 n2 : hex_value d1 n1 -> hex_value d2 n2 -> component (pair_value n1 n2).
Proof. intros H1 H2. apply hex_value_lt in H1, H2. unfold component, pair_value. lia. Qed.
Lemma rgb_range v c : unmarshal_rgb v = Some c -> component (R c) /\ component (G c) /\ component (B c).
Proof.
  intros H. apply rgb_iff in H as (d1 & d2 & d3 & d4 & d5 & d6 & n1 & n2 & n3 & n4 & n5 & n6 & _ & H1 & H2 & H3 & H4 & H5 & H6 & ->).
  cbn. repeat split; eapply pair_component; eassumption.
Qed.
Lemma hex2_ok z : component z -> exists a b, hex2 z = [a; b] /\ exists m n, hex_value a m /\ hex_value b n /\ pair_value m n = z.
Proof.
  intros H. unfold component in H. unfold hex2. eexists _, _. split; [reflexivity|].
  set (n := Z.to_nat z). assert (Hn : (n < 256)%nat) by (unfold n; lia).
  exists (n / 16)%nat, (n mod 16)%nat.
  assert (H1 : (n / 16 < 16)%nat) by (apply Nat.div_lt_upper_bound; lia).
  assert (H2 : (n mod 16 < 16)%nat) by (apply Nat.mod_upper_bound; lia).
  split; [left; apply nth_error_nth'; exact H1|]. split; [left; apply nth_error_nth'; exact H2|].
  unfold pair_value. rewrite <- Nat.div_mod by lia. unfold n. lia.
Qed.
Lemma rgb_round_trip c : component (R c) -> component (G c) -> component (B c) -> unmarshal_rgb (show_rgb c) = Some c.
Proof.
  intros HR HG HB. apply rgb_iff.
  destruct (hex2_ok _ HR) as (d1 & d2 & E1 & n1 & n2 & A1 & A2 & A). destruct (hex2_ok _ HG) as (d3 & d4 & E2 & n3 & n4 & B1 & B2 & HB').
  destruct (hex2_ok _ HB) as (d5 & d6 & E3 & n5 & n6 & C1 & C2 & C).
  exists d1, d2, d3, d4, d5, d6, n1, n2, n3, n4, n5, n6. unfold show_rgb. rewrite E1, E2, E3.
  split; [right; reflexivity|]. repeat (split; [assumption|]). rewrite A, HB', C. destruct c; reflexivity.
Qed.

(** ** Scanning *)
Local Open Scope N_scope.
Lemma is_dec_iff r : is_dec r = true <-> dec_digit r.
Proof. unfold is_dec, between, dec_digit. rewrite andb_true_iff, !N.leb_le. reflexivity. Qed.
Lemma is_dec_f r : is_dec r = false <-> ~ dec_digit r.
Proof. rewrite <- is_dec_iff. destruct (is_dec r); split; congruence. Qed.

Lemma space_facts r : is_space r = true -> ~ dec_digit r /\ is_sign r = false /\ r <> 44 /\ is2 110 78 r = false /\ is2 105 73 r = false /\ r <> 46.
Proof.
  unfold is_space, is_sign, is2, between, dec_digit.
  rewrite !orb_true_iff, !andb_true_iff, !N.leb_le, !N.eqb_eq, !orb_false_iff, !N.eqb_neq. lia.
Qed.
Lemma white_iff r : is_space r = true <-> white_space r.
Proof. unfold is_space, white_space, between. cbn [In]. rewrite !orb_true_iff, !andb_true_iff, !N.leb_le, !N.eqb_eq. lia. Qed.
Lemma white_not r : is_space r = false <-> ~ white_space r.
Proof. rewrite <- white_iff. destruct (is_space r); split; congruence. Qed.
Lemma skip_iff rs rs' : skip_space rs = Some rs' <->
  exists w, rs = (w ++ rs')%list /\ Forall blank_rune w /\ match rs' with r :: _ => is_space r = false | [] => True end.
Proof.
  induction rs as [|r rs IH]; cbn [skip_space].
  - split.
    + intros [= <-]. exists []. repeat constructor.
    + intros (w & E & _ & H). destruct w; [|discriminate]. cbn in E. subst. reflexivity.
  - destruct (N.eqb_spec r 10) as [->|Hr].
    + split; [discriminate|]. intros (w & E & Hw & H). exfalso. destruct w as [|x w]; cbn in E.
      * subst rs'. discriminate.
      * injection E as <- _. inversion Hw as [|? ? [_ Hx] _]; congruence.
    + destruct (is_space r) eqn:Es.
      * rewrite IH. split.
        -- intros (w & -> & Hw & H). exists (r :: w). split; [reflexivity|]. split; [constructor; [split; [apply white_iff; assumption|assumption]|exact Hw]|exact H].
        -- intros (w & E & Hw & H). destruct w as [|x w]; cbn in E.
           ++ subst rs'. congruence.
           ++ injection E as <- ->. exists w. inversion Hw; subst. auto.
      * split.
        -- intros [= <-]. exists []. split; [reflexivity|]. split; [constructor|exact Es].
        -- intros (w & E & Hw & H). destruct w as [|x w]; cbn in E; [congruence|].
           injection E as <- _. inversion Hw as [|? ? [Hx _] _]; apply white_iff in Hx; congruence.
Qed.

Lemma accept_many_app ok ds : forall buf rest, Forall (fun r => ok r = true) ds ->
  match rest with r :: _ => ok r = false | [] => True end ->
  accept_many_go ok buf (ds ++ rest)%list = ((buf ++ map byte ds)%list, rest).
Proof.
  induction ds as [|d ds IH]; intros buf rest Hd Hr.
  - cbn [app map]. rewrite app_nil_r. destruct rest as [|r rest]; [reflexivity|]. cbn. rewrite Hr. reflexivity.
  - inversion Hd as [|? ? Hd1 Hd2]; subst. cbn [app accept_many_go map]. rewrite Hd1, IH by assumption.
    rewrite <- app_assoc. reflexivity.
Qed.
Lemma accept_many_inv ok rs : forall buf tok rest, accept_many_go ok buf rs = (tok, rest) ->
  exists ds, rs = (ds ++ rest)%list /\ tok = (buf ++ map byte ds)%list /\ Forall (fun r => ok r = true) ds /\
  match rest with r :: _ => ok r = false | [] => True end.
Proof.
  induction rs as [|r rs IH]; intros buf tok rest H; cbn in H.
  - injection H as <- <-. exists []. cbn [map app]. rewrite app_nil_r. auto.
  - destruct (ok r) eqn:E.
    + apply IH in H as (ds & -> & -> & Hd & Hr). exists (r :: ds). cbn. rewrite <- app_assoc. repeat split; [|exact Hr].
      constructor; assumption.
    + injection H as <- <-. exists []. cbn. rewrite app_nil_r. repeat split; [constructor|exact E].
Qed.

(** Values *)
Lemma byte_dec r : dec_digit r -> N_of_ascii (byte r) = r.
Proof. intros H. apply N_byte. unfold dec_digit in H. lia. Qed.
Lemma digits_value_app ds : Forall dec_digit ds -> forall acc,
  Z.of_N (fold_left (fun acc c => acc * 10 + (N_of_ascii c - 48)) (map byte ds) acc) =
  (Z.of_N acc * 10 ^ Z.of_nat (List.length ds) + dec_value ds)%Z.
Proof.
  induction 1 as [|d ds Hd _ IH]; intros acc; cbn [map fold_left List.length dec_value].
  - change (10 ^ Z.of_nat 0)%Z with 1%Z. lia.
  - rewrite IH, byte_dec by exact Hd. unfold dec_digit in Hd.
    rewrite Nat2Z.inj_succ, Z.pow_succ_r by lia.
    replace (Z.of_N (acc * 10 + (d - 48))) with (Z.of_N acc * 10 + (Z.of_N d - 48))%Z by lia. ring.
Qed.
Lemma digits_value_ok ds : Forall dec_digit ds -> Z.of_N (digits_value (map byte ds)) = dec_value ds.
Proof. intros H. unfold digits_value. rewrite digits_value_app by exact H. reflexivity. Qed.

Lemma range_test z : ((-(2 ^ 63) <=? z) && (z <? 2 ^ 63))%Z = true <-> in_int64 z.
Proof. unfold in_int64. rewrite andb_true_iff, Z.leb_le, Z.ltb_lt. reflexivity. Qed.

Lemma parse_int64_ok s k ds : sign_of s k -> ds <> [] -> Forall dec_digit ds ->
  parse_int64 (map byte (s ++ ds)%list) = if ((-(2 ^ 63) <=? k * dec_value ds) && (k * dec_value ds <? 2 ^ 63))%Z then Some (k * dec_value ds)%Z else None.
Proof.
  intros Hs Hne Hd. destruct ds as [|d ds]; [congruence|].
  assert (Hd0 : dec_digit d) by (inversion Hd; assumption).
  destruct Hs as [[[-> | ->] ->]|[-> ->]]; unfold parse_int64.
  - cbn [app map]. rewrite byte_dec by exact Hd0. unfold dec_digit in Hd0.
    rewrite (eqb_f d 45), (eqb_f d 43) by lia. cbv beta iota zeta.
    change (byte d :: map byte ds) with (map byte (d :: ds)). rewrite digits_value_ok by exact Hd.
    rewrite Z.mul_1_l. reflexivity.
  - change (map byte ([43] ++ d :: ds)) with (byte 43 :: map byte (d :: ds)).
    cbv beta iota zeta. change (N_of_ascii (byte 43) =? 45) with false. change (N_of_ascii (byte 43) =? 43) with true. cbv beta iota zeta.
    rewrite digits_value_ok by exact Hd. rewrite Z.mul_1_l. reflexivity.
  - change (map byte ([45] ++ d :: ds)) with (byte 45 :: map byte (d :: ds)).
    cbv beta iota zeta. change (N_of_ascii (byte 45) =? 45) with true. cbv beta iota zeta.
    rewrite digits_value_ok by exact Hd. replace (-1 * dec_value (d :: ds))%Z with (- dec_value (d :: ds))%Z by lia. reflexivity.
Qed.

Lemma dec_not_sign d : dec_digit d -> is_sign d = false.
Proof. unfold dec_digit, is_sign. intros H. rewrite (eqb_f d 43), (eqb_f d 45) by lia. reflexivity. Qed.
Lemma dec_not_space d : dec_digit d -> is_space d = false.
Proof. intros H. destruct (is_space d) eqn:E; [|reflexivity]. apply space_facts in E as [E _]. contradiction. Qed.

Lemma rest_digit rest : match rest with r :: _ => is_dec r = false | [] => True end <-> not_digit_first rest.
Proof. destruct rest as [|r rest]; [reflexivity|]. apply is_dec_f. Qed.

Lemma scan_int_iff rs z rest : scan_int rs = Some (z, rest) <->
  exists w t, rs = (w ++ t ++ rest)%list /\ Forall blank_rune w /\ int_token t z /\ in_int64 z /\ not_digit_first rest.
Proof.
  split.
  - unfold scan_int. destruct (skip_space rs) as [rs1|] eqn:E; [|discriminate]. intros H.
    apply skip_iff in E as (w & -> & Hw & Hns).
    assert (Hs : exists s k rs2, rs1 = (s ++ rs2)%list /\ sign_of s k /\ try_accept is_sign ([], rs1) = (map byte s, rs2)).
    { unfold try_accept, accept. cbn [fst snd app]. destruct rs1 as [|r rs1].
      - exists [], 1%Z, []. split; [reflexivity|]. split; [left; auto|reflexivity].
      - destruct (is_sign r) eqn:Er.
        + unfold is_sign in Er. apply orb_true_iff in Er. rewrite !N.eqb_eq in Er. destruct Er as [-> | ->].
          * exists [43], 1%Z, rs1. split; [reflexivity|]. split; [left; auto|reflexivity].
          * exists [45], (-1)%Z, rs1. split; [reflexivity|]. split; [right; auto|reflexivity].
        + exists [], 1%Z, (r :: rs1). split; [reflexivity|]. split; [left; auto|reflexivity]. }
    destruct Hs as (s & k & rs2 & -> & Hs & Ht). rewrite Ht in H. unfold accept in H. cbn [fst snd] in H.
    destruct rs2 as [|d rs2]; [discriminate|]. destruct (is_dec d) eqn:Ed; [|discriminate].
    unfold accept_many in H. cbn [fst snd] in H.
    destruct (accept_many_go is_dec (map byte s ++ [byte d]) rs2) as [tok rest'] eqn:Em.
    apply accept_many_inv in Em as (ds & -> & -> & Hds & Hrest).
    assert (Hdd : Forall dec_digit (d :: ds)).
    { constructor; [apply is_dec_iff, Ed|]. eapply Forall_impl; [|exact Hds]. intros a. apply is_dec_iff. }
    replace ((map byte s ++ [byte d]) ++ map byte ds)%list with (map byte (s ++ d :: ds)) in H
      by (rewrite map_app, <- app_assoc; reflexivity).
    rewrite (parse_int64_ok s k (d :: ds) Hs ltac:(discriminate) Hdd) in H.
    destruct ((-(2 ^ 63) <=? k * dec_value (d :: ds)) && (k * dec_value (d :: ds) <? 2 ^ 63))%Z eqn:Er; [|discriminate].
    injection H as <- <-. apply range_test in Er.
    exists w, (s ++ d :: ds)%list. split; [rewrite <- !app_assoc; reflexivity|].
    split; [exact Hw|]. split; [|split; [exact Er|apply rest_digit, Hrest]].
    exists s, k, (d :: ds). repeat split; try assumption. discriminate.
  - intros (w & t & -> & Hw & (s & k & ds & -> & Hs & Hne & Hds & ->) & Hr & Hrest).
    unfold scan_int. destruct ds as [|d ds]; [congruence|].
    assert (Hd : dec_digit d) by (inversion Hds; assumption).
    assert (Esk : skip_space (w ++ (s ++ d :: ds) ++ rest)%list = Some ((s ++ d :: ds) ++ rest)%list).
    { apply skip_iff. exists w. split; [reflexivity|]. split; [exact Hw|].
      destruct Hs as [[[-> | ->] _]|[-> _]]; cbn [app]; [apply dec_not_space, Hd|reflexivity|reflexivity]. }
    rewrite Esk.
    assert (Et : try_accept is_sign ([], ((s ++ d :: ds) ++ rest)%list) = (map byte s, (d :: ds ++ rest)%list)).
    { unfold try_accept, accept. destruct Hs as [[[-> | ->] _]|[-> _]]; cbn [app fst snd map];
        [rewrite dec_not_sign by exact Hd|..]; reflexivity. }
    rewrite Et. unfold accept. cbn [fst snd]. rewrite (proj2 (is_dec_iff d) Hd).
    unfold accept_many. cbn [fst snd]. rewrite accept_many_app.
    2:{ inversion Hds as [|? ? _ Hds']; subst. eapply Forall_impl; [|exact Hds']. intros a. apply is_dec_iff. }
    2:{ apply rest_digit, Hrest. }
    replace ((map byte s ++ [byte d]) ++ map byte ds)%list with (map byte (s ++ d :: ds))
      by (rewrite map_app, <- app_assoc; reflexivity).
    rewrite (parse_int64_ok s k (d :: ds) Hs Hne Hds). rewrite (proj2 (range_test _) Hr). reflexivity.
Qed.

Lemma comma_iff rs rs' : scan_comma rs = Some rs' <-> rs = 44 :: rs'.
Proof.
  destruct rs as [|r rs]; cbn; [split; discriminate|]. destruct (N.eqb_spec r 44) as [->|Hr].
  - split; congruence.
  - split; [discriminate|congruence].
Qed.

Lemma comma_not_digit l : not_digit_first (44 :: l).
Proof. unfold not_digit_first, dec_digit. lia. Qed.

Lemma scan4_int_iff s a b c d : scan4 scan_int s = Some (a, b, c, d) <->
  exists rest, four int_token (decode s) a b c d rest /\ not_digit_first rest /\
    in_int64 a /\ in_int64 b /\ in_int64 c /\ in_int64 d.
Proof.
  unfold scan4. split.
  - intros H.
    destruct (scan_int (decode s)) as [[a' r1]|] eqn:E1; [|discriminate].
    destruct (scan_comma r1) as [r1'|] eqn:C1; [|discriminate]. apply comma_iff in C1. subst r1.
    destruct (scan_int r1') as [[b' r2]|] eqn:E2; [|discriminate].
    destruct (scan_comma r2) as [r2'|] eqn:C2; [|discriminate]. apply comma_iff in C2. subst r2.
    destruct (scan_int r2') as [[c' r3]|] eqn:E3; [|discriminate].
    destruct (scan_comma r3) as [r3'|] eqn:C3; [|discriminate]. apply comma_iff in C3. subst r3.
    destruct (scan_int r3') as [[d' r4]|] eqn:E4; [|discriminate]. injection H as <- <- <- <-.
    apply scan_int_iff in E1 as (w1 & t1 & D & W1 & T1 & I1 & _). apply scan_int_iff in E2 as (w2 & t2 & -> & W2 & T2 & I2 & _).
    apply scan_int_iff in E3 as (w3 & t3 & -> & W3 & T3 & I3 & _). apply scan_int_iff in E4 as (w4 & t4 & -> & W4 & T4 & I4 & N4).
    exists r4. split; [|tauto]. exists w1, t1, w2, t2, w3, t3, w4, t4. rewrite D. split; [|tauto]. reflexivity.
  - intros (rest & (w1 & t1 & w2 & t2 & w3 & t3 & w4 & t4 & D & W1 & W2 & W3 & W4 & T1 & T2 & T3 & T4) & Hr & I1 & I2 & I3 & I4).
    rewrite D.
    erewrite (proj2 (scan_int_iff _ a _)) by (exists w1, t1; split; [reflexivity|]; split; [exact W1|]; split; [exact T1|]; split; [exact I1|apply comma_not_digit]).
    cbn [app scan_comma]. change (44 =? 44) with true. cbv iota.
    erewrite (proj2 (scan_int_iff _ b _)) by (exists w2, t2; split; [reflexivity|]; split; [exact W2|]; split; [exact T2|]; split; [exact I2|apply comma_not_digit]).
    cbn [app scan_comma]. change (44 =? 44) with true. cbv iota.
    erewrite (proj2 (scan_int_iff _ c _)) by (exists w3, t3; split; [reflexivity|]; split; [exact W3|]; split; [exact T3|]; split; [exact I3|apply comma_not_digit]).
    cbn [app scan_comma]. change (44 =? 44) with true. cbv iota.
    erewrite (proj2 (scan_int_iff _ d rest)) by (exists w4, t4; split; [reflexivity|]; split; [exact W4|]; split; [exact T4|]; split; [exact I4|exact Hr]).
    reflexivity.
Qed.

(** ** Formatting integers *)
Lemma dec_value_snoc ds d : dec_value (ds ++ [d])%list = (dec_value ds * 10 + (Z.of_N d - 48))%Z.
Proof.
  induction ds as [|x ds IH]; [cbn; lia|]. cbn [app dec_value]. rewrite IH, app_length. cbn [List.length].
  replace (List.length ds + 1)%nat with (S (List.length ds)) by lia. rewrite Nat2Z.inj_succ, Z.pow_succ_r by lia. ring.
Qed.
Lemma digit_val n : n < 10 -> N_of_ascii (digit n) = 48 + n.
Proof. intros H. unfold digit. apply N_byte. lia. Qed.
Lemma digits_rev_ok f : forall n, n < 10 ^ N.of_nat f -> f <> O ->
  let ds := map N_of_ascii (rev (digits_rev f n)) in ds <> [] /\ Forall dec_digit ds /\ dec_value ds = Z.of_N n.
Proof.
  induction f as [|f IH]; intros n Hn Hf; [congruence|]. cbn [digits_rev].
  destruct (N.ltb_spec n 10) as [H|H].
  - cbn [rev app map]. rewrite digit_val by exact H. split; [discriminate|]. split.
    + constructor; [unfold dec_digit; lia|constructor].
    + cbn [dec_value List.length]. change (10 ^ Z.of_nat 0)%Z with 1%Z. lia.
  - assert (Hf' : f <> O) by (intros ->; change (10 ^ N.of_nat 1) with 10 in Hn; lia).
    assert (Hm : n mod 10 < 10) by (apply N.mod_lt; discriminate).
    assert (Hq : n / 10 < 10 ^ N.of_nat f).
    { apply N.div_lt_upper_bound; [discriminate|]. rewrite Nnat.Nat2N.inj_succ, N.pow_succ_r' in Hn. exact Hn. }
    specialize (IH (n / 10) Hq Hf'). cbv zeta in IH. pose proof (N.div_mod n 10 ltac:(discriminate)) as Hdm.
    set (m := n mod 10) in *. set (q := n / 10) in *. clearbody m q. destruct IH as (Hne & Hd & Hv).
    cbv zeta. cbn [rev]. rewrite map_app. cbn [map]. rewrite digit_val by exact Hm. split; [intros E; apply app_eq_nil in E as [_ E]; discriminate|]. split.
    + apply Forall_app. split; [exact Hd|]. constructor; [unfold dec_digit; lia|constructor].
    + rewrite dec_value_snoc, Hv. lia.
Qed.
Lemma itoa_N_ok n : let ds := map N_of_ascii (itoa_N n) in ds <> [] /\ Forall dec_digit ds /\ dec_value ds = Z.of_N n.
Proof.
  unfold itoa_N. apply digits_rev_ok; [|discriminate].
  assert (H : n < 2 ^ N.size n) by apply N.size_gt.
  eapply N.lt_le_trans; [exact H|]. rewrite Nnat.Nat2N.inj_succ, Nnat.N2Nat.id.
  transitivity (10 ^ N.size n).
  - apply N.pow_le_mono_l. lia.
  - apply N.pow_le_mono_r; [discriminate|]. lia.
Qed.
Lemma itoa_ok z : int_token (map N_of_ascii (itoa z)) z.
Proof.
  destruct z as [|p|p].
  - exists [], 1%Z, [48]. repeat split; try discriminate; [left; auto|]. repeat constructor; discriminate.
  - destruct (itoa_N_ok (Npos p)) as (Hne & Hd & Hv). exists [], 1%Z, (map N_of_ascii (itoa_N (Npos p))).
    split; [reflexivity|]. split; [left; auto|]. split; [exact Hne|]. split; [exact Hd|]. rewrite Hv. lia.
  - destruct (itoa_N_ok (Npos p)) as (Hne & Hd & Hv). exists [45], (-1)%Z, (map N_of_ascii (itoa_N (Npos p))).
    split; [reflexivity|]. split; [right; auto|]. split; [exact Hne|]. split; [exact Hd|]. rewrite Hv. lia.
Qed.

Lemma is_space_ascii_or r : is_space r = true -> valid_rune r = true.
Proof.
  intros H. apply valid_rune_intro; revert H; unfold is_space, between;
    rewrite !orb_true_iff, !andb_true_iff, !N.leb_le, !N.eqb_eq; lia.
Qed.
Lemma blank_valid w : Forall blank_rune w -> Forall (fun r => valid_rune r = true) w.
Proof. intros H. eapply Forall_impl; [|exact H]. intros r [Hr _]. apply is_space_ascii_or, white_iff, Hr. Qed.
Lemma digits_valid ds : Forall dec_digit ds -> Forall (fun r => valid_rune r = true) ds.
Proof. intros H. eapply Forall_impl; [|exact H]. intros r Hr. unfold dec_digit in Hr. apply valid_rune_intro; lia. Qed.
Lemma sign_valid s k : sign_of s k -> Forall (fun r => valid_rune r = true) s.
Proof. intros [[[-> | ->] _]|[-> _]]; repeat constructor. Qed.
Lemma int_token_valid t z : int_token t z -> Forall (fun r => valid_rune r = true) t.
Proof.
  intros (s & k & ds & -> & Hs & _ & Hd & _). apply Forall_app. split; [eapply sign_valid, Hs|apply digits_valid, Hd].
Qed.

Lemma itoa_encode z : encode (map N_of_ascii (itoa z)) = itoa z.
Proof.
  assert (H : ascii_only (itoa z)).
  { destruct (itoa_ok z) as (s & k & ds & E & Hs & _ & Hd & _).
    assert (G : Forall (fun r => r < 128) (map N_of_ascii (itoa z))).
    { rewrite E. apply Forall_app. split.
      - destruct Hs as [[[-> | ->] _]|[-> _]]; repeat constructor.
      - eapply Forall_impl; [|exact Hd]. unfold dec_digit. intros; lia. }
    unfold ascii_only. rewrite Forall_map in G. exact G. }
  rewrite encode_ascii.
  - rewrite map_map. unfold byte. rewrite <- (map_id (itoa z)) at 2. apply map_ext. intros a. apply ascii_N_embedding.
  - rewrite Forall_map. exact H.
Qed.

(** ** Decimal numbers *)
Section Float.
Variable F : Type.
Variable convert_float : bytes -> option F.

Lemma accept3_no a b c st : match snd st with r :: _ => a r = false | [] => True end -> accept3 a b c st = (false, st).
Proof. unfold accept3, accept. destruct (snd st) as [|r rs]; [reflexivity|]. intros ->. reflexivity. Qed.

Definition comma_first (rest : list N) : Prop := match rest with [] => True | r :: _ => r = 44 end.

Lemma is_dec_us r : dec_digit r -> (is_dec r || (r =? 95)) = true.
Proof. intros H. rewrite (proj2 (is_dec_iff r) H). reflexivity. Qed.
Lemma not_dec_us r : ~ dec_digit r -> r <> 95 -> (is_dec r || (r =? 95)) = false.
Proof. intros H H'. rewrite (proj2 (is_dec_f r) H), eqb_f by exact H'. reflexivity. Qed.

(** The parts of floatToken after the first digits. *)
Lemma float_tail fr ex rest buf :
  (fr = [] \/ exists ds, fr = 46 :: ds /\ Forall dec_digit ds) ->
  (ex = [] \/ exists e s' k' ds, ex = e :: (s' ++ ds)%list /\ (e = 101 \/ e = 69) /\ sign_of s' k' /\ ds <> [] /\ Forall dec_digit ds) ->
  comma_first rest ->
  let ds := fun r => is_dec r || (r =? 95) in
  let st := (buf, (fr ++ ex ++ rest)%list) in
  let st := match accept (fun r => r =? 46) st with Some s1 => accept_many ds s1 | None => st end in
  match accept (fun r => is2 101 69 r || is2 112 80 r) st with
  | Some s1 => accept_many ds (try_accept is_sign s1)
  | None => st
  end = ((buf ++ map byte fr ++ map byte ex)%list, rest).
Proof.
  intros Hfr Hex Hrest.
  assert (Hfirst : forall r l, (ex ++ rest)%list = r :: l -> ~ dec_digit r /\ r <> 95 /\ r <> 46).
  { intros r l E. destruct Hex as [->|(e & s' & k' & ds & -> & He & _)]; cbn in E.
    - subst rest. cbn in Hrest. subst r. unfold dec_digit. lia.
    - injection E as <- _. unfold dec_digit. lia. }
  cbv zeta.
  assert (E1 : match accept (fun r => r =? 46) (buf, (fr ++ ex ++ rest)%list) with
               | Some s1 => accept_many (fun r => is_dec r || (r =? 95)) s1
               | None => (buf, (fr ++ ex ++ rest)%list) end = ((buf ++ map byte fr)%list, (ex ++ rest)%list)).
  { destruct Hfr as [->|(ds & -> & Hd)].
    - cbn [app map]. rewrite app_nil_r. unfold accept. cbn [snd fst].
      destruct (ex ++ rest)%list as [|r l] eqn:E; [reflexivity|]. destruct (Hfirst r l eq_refl) as (_ & _ & H).
      rewrite eqb_f by exact H. reflexivity.
    - unfold accept. cbn [snd fst app]. change (46 =? 46) with true. cbv iota. unfold accept_many. cbn [fst snd].
      rewrite accept_many_app.
      + rewrite <- app_assoc. reflexivity.
      + eapply Forall_impl; [|exact Hd]. intros a. apply is_dec_us.
      + destruct (ex ++ rest)%list as [|r l] eqn:E; [exact I|]. destruct (Hfirst r l eq_refl) as (H1 & H2 & _). apply not_dec_us; assumption. }
  rewrite E1. clear E1 Hfirst. destruct Hex as [->|(e & s' & k' & ds & -> & He & Hs & Hne & Hd)].
  - cbn [app map]. rewrite app_nil_r. unfold accept. cbn [snd fst].
    destruct rest as [|r l]; [reflexivity|]. cbn in Hrest. subst r. reflexivity.
  - unfold accept at 1. cbn [snd fst app]. replace (is2 101 69 e) with true by (destruct He as [-> | ->]; reflexivity).
    cbn [orb]. cbv iota.
    destruct ds as [|d ds]; [congruence|].
    assert (Hd0 : dec_digit d) by (inversion Hd; assumption).
    assert (Et : try_accept is_sign (((buf ++ map byte fr) ++ [byte e])%list, ((s' ++ d :: ds) ++ rest)%list) =
                 ((((buf ++ map byte fr) ++ [byte e]) ++ map byte s')%list, (d :: ds ++ rest)%list)).
    { unfold try_accept, accept. destruct Hs as [[[-> | ->] _]|[-> _]]; cbn [app fst snd map];
        [rewrite dec_not_sign by exact Hd0; rewrite app_nil_r|..]; reflexivity. }
    rewrite Et. unfold accept_many. cbn [fst snd].
    change (d :: ds ++ rest)%list with ((d :: ds) ++ rest)%list. rewrite accept_many_app.
    + f_equal. cbn [map]. rewrite map_app, <- !app_assoc. reflexivity.
    + eapply Forall_impl; [|exact Hd]. intros a. apply is_dec_us.
    + destruct rest as [|r l]; [exact I|]. cbn in Hrest. subst r. reflexivity.
Qed.

Lemma float_token_ok t rest : float_literal t -> comma_first rest -> float_token (t ++ rest)%list = (map byte t, rest).
Proof.
  intros (s & k & ip & fr & ex & -> & Hs & Hne & Hip & Hfr & Hex) Hrest.
  destruct ip as [|d ip]; [congruence|].
  assert (Hd : dec_digit d) by (inversion Hip; assumption).
  assert (Hip' : Forall dec_digit ip) by (inversion Hip; assumption).
  unfold float_token.
  rewrite accept3_no.
  2:{ cbn [snd]. destruct Hs as [[[-> | ->] _]|[-> _]]; cbn [app]; [|reflexivity|reflexivity].
      unfold is2. unfold dec_digit in Hd. rewrite (eqb_f d 110), (eqb_f d 78) by lia. reflexivity. }
  assert (Et : try_accept is_sign ([], ((s ++ (d :: ip) ++ fr ++ ex) ++ rest)%list) = (map byte s, (d :: ip ++ fr ++ ex ++ rest)%list)).
  { unfold try_accept, accept. rewrite <- !app_assoc. destruct Hs as [[[-> | ->] _]|[-> _]]; cbn [app fst snd map];
      [rewrite dec_not_sign by exact Hd|..]; reflexivity. }
  rewrite Et. rewrite accept3_no.
  2:{ cbn [snd]. unfold is2. unfold dec_digit in Hd. rewrite (eqb_f d 105), (eqb_f d 73) by lia. reflexivity. }
  assert (Hafter : forall r l, (fr ++ ex ++ rest)%list = r :: l -> ~ dec_digit r /\ r <> 95 /\ is2 120 88 r = false).
  { intros r l E. destruct Hfr as [->|(ds & -> & _)]; cbn in E.
    - destruct Hex as [->|(e & s' & k' & ds & -> & He & _)]; cbn in E.
      + subst rest. cbn in Hrest. subst r. unfold dec_digit. split; [lia|]. split; [lia|reflexivity].
      + injection E as <- _. unfold dec_digit. split; [lia|]. split; [lia|]. destruct He as [-> | ->]; reflexivity.
    - injection E as <- _. unfold dec_digit. split; [lia|]. split; [lia|reflexivity]. }
  assert (Hmany : forall buf, accept_many (fun r => is_dec r || (r =? 95)) (buf, (ip ++ fr ++ ex ++ rest)%list) = ((buf ++ map byte ip)%list, (fr ++ ex ++ rest)%list)).
  { intros buf. unfold accept_many. cbn [fst snd]. apply accept_many_app.
    - eapply Forall_impl; [|exact Hip']. intros a. apply is_dec_us.
    - destruct (fr ++ ex ++ rest)%list as [|r l] eqn:E; [exact I|]. destruct (Hafter r l eq_refl) as (H1 & H2 & _). apply not_dec_us; assumption. }
  assert (Hsel : match accept (fun r => r =? 48) (map byte s, (d :: ip ++ fr ++ ex ++ rest)%list) with
    | None => (is_dec, (fun r => is2 101 69 r || is2 112 80 r), (map byte s, (d :: ip ++ fr ++ ex ++ rest)%list))
    | Some s1 => match accept (is2 120 88) s1 with
                 | Some s2 => (is_hex, is2 112 80, s2)
                 | None => (is_dec, (fun r => is2 101 69 r || is2 112 80 r), s1)
                 end
    end = (is_dec, (fun r => is2 101 69 r || is2 112 80 r),
           if d =? 48 then ((map byte s ++ [byte d])%list, (ip ++ fr ++ ex ++ rest)%list) else (map byte s, (d :: ip ++ fr ++ ex ++ rest)%list))).
  { unfold accept at 1. cbn [fst snd]. destruct (N.eqb_spec d 48) as [->|]; [|reflexivity].
    unfold accept. cbn [fst snd]. destruct (ip ++ fr ++ ex ++ rest)%list as [|r l] eqn:E; [reflexivity|].
    assert (is2 120 88 r = false) as ->; [|reflexivity].
    destruct ip as [|i ip]; cbn in E.
    - destruct (Hafter r l E) as (_ & _ & H). exact H.
    - injection E as <- _. inversion Hip' as [|? ? Hi _]; subst. unfold dec_digit in Hi. unfold is2.
      rewrite (eqb_f i 120), (eqb_f i 88) by lia. reflexivity. }
  cbv beta iota zeta.
  match goal with |- context [match ?m with pair _ _ => _ end] => destruct m as [[dg xp] st3] eqn:Em end.
  pose proof (eq_trans (eq_sym Em) Hsel) as Em2. injection Em2 as -> -> ->. clear Em Hsel.
  assert (Hds : accept_many (fun r => is_dec r || (r =? 95)) (if d =? 48 then ((map byte s ++ [byte d])%list, (ip ++ fr ++ ex ++ rest)%list) else (map byte s, (d :: ip ++ fr ++ ex ++ rest)%list))
      = (((map byte s ++ [byte d]) ++ map byte ip)%list, (fr ++ ex ++ rest)%list)).
  { destruct (d =? 48); [apply Hmany|]. unfold accept_many. cbn [fst snd accept_many_go]. rewrite is_dec_us by exact Hd.
    specialize (Hmany (map byte s ++ [byte d])%list). unfold accept_many in Hmany. cbn [fst snd] in Hmany. exact Hmany. }
  unfold bytes in *. rewrite Hds.
  pose proof (float_tail fr ex rest ((map byte s ++ [byte d]) ++ map byte ip)%list Hfr Hex Hrest) as Hft. cbv zeta in Hft. unfold bytes in *. rewrite Hft.
  f_equal. rewrite !map_app. cbn [map]. rewrite <- !app_assoc. reflexivity.
Qed.

Lemma float_literal_head t : float_literal t -> exists r t', t = r :: t' /\ is_space r = false.
Proof.
  intros (s & k & ip & fr & ex & -> & Hs & Hne & Hip & _). destruct ip as [|d ip]; [congruence|].
  assert (Hd : dec_digit d) by (inversion Hip; assumption).
  destruct Hs as [[[-> | ->] _]|[-> _]]; cbn [app]; eexists _, _; (split; [reflexivity|]); [apply dec_not_space, Hd|reflexivity|reflexivity].
Qed.

Lemma scan_float_ok w t f rest : Forall blank_rune w -> float_literal t -> convert_float (map byte t) = Some f -> comma_first rest ->
  scan_float F convert_float (w ++ t ++ rest)%list = Some (f, rest).
Proof.
  intros Hw Ht Hf Hrest. destruct (float_literal_head t Ht) as (r & t' & E & Hr).
  unfold scan_float. assert (Es : skip_space (w ++ t ++ rest)%list = Some (t ++ rest)%list).
  { apply skip_iff. exists w. split; [reflexivity|]. split; [exact Hw|]. subst t. exact Hr. }
  rewrite Es. pose proof (float_token_ok t rest Ht Hrest) as Htok. subst t. cbn [app] in *. rewrite Htok, Hf. reflexivity.
Qed.

Lemma scan4_float_ok s a b c d :
  four (fun t f => float_literal t /\ convert_float (map byte t) = Some f) (decode s) a b c d [] ->
  scan4 (scan_float F convert_float) s = Some (a, b, c, d).
Proof.
  intros (w1 & t1 & w2 & t2 & w3 & t3 & w4 & t4 & D & W1 & W2 & W3 & W4 & [T1 V1] & [T2 V2] & [T3 V3] & [T4 V4]).
  unfold scan4. rewrite D. cbn [app].
  rewrite (scan_float_ok w1 t1 a _ W1 T1 V1 (eq_refl : comma_first (44 :: _))). cbn [scan_comma]. change (44 =? 44) with true. cbv iota.
  rewrite (scan_float_ok w2 t2 b _ W2 T2 V2 (eq_refl : comma_first (44 :: _))). cbn [scan_comma]. change (44 =? 44) with true. cbv iota.
  rewrite (scan_float_ok w3 t3 c _ W3 T3 V3 (eq_refl : comma_first (44 :: _))). cbn [scan_comma]. change (44 =? 44) with true. cbv iota.
  rewrite (scan_float_ok w4 t4 d [] W4 T4 V4 I). reflexivity.
Qed.

(** Scanning returns a suffix of its input. *)
Definition suffix_of (r rs : list N) : Prop := exists p, rs = (p ++ r)%list.
Lemma suffix_refl r : suffix_of r r. Proof. exists []. reflexivity. Qed.
Lemma suffix_trans a b c : suffix_of a b -> suffix_of b c -> suffix_of a c.
Proof. intros [p ->] [q ->]. exists (q ++ p)%list. rewrite app_assoc. reflexivity. Qed.
Lemma suffix_cons r x rs : suffix_of r rs -> suffix_of r (x :: rs).
Proof. intros [p ->]. exists (x :: p). reflexivity. Qed.
Lemma accept_suffix ok st st' : accept ok st = Some st' -> suffix_of (snd st') (snd st).
Proof.
  unfold accept. destruct (snd st) as [|r rs] eqn:E; [discriminate|]. destruct (ok r); [|discriminate].
  intros [= <-]. cbn. apply suffix_cons, suffix_refl.
Qed.
Lemma try_accept_suffix ok st : suffix_of (snd (try_accept ok st)) (snd st).
Proof. unfold try_accept. destruct (accept ok st) as [st'|] eqn:E; [apply accept_suffix in E; exact E|apply suffix_refl]. Qed.
Lemma accept_many_suffix ok st : suffix_of (snd (accept_many ok st)) (snd st).
Proof.
  unfold accept_many. destruct (accept_many_go ok (fst st) (snd st)) as [t r] eqn:E.
  apply accept_many_inv in E as (ds & -> & _). exists ds. reflexivity.
Qed.
Lemma accept3_suffix a b c st b' st' : accept3 a b c st = (b', st') -> suffix_of (snd st') (snd st).
Proof.
  unfold accept3. destruct (accept a st) as [s1|] eqn:E1; [|intros [= _ <-]; apply suffix_refl].
  apply accept_suffix in E1.
  destruct (accept b s1) as [s2|] eqn:E2; [|intros [= _ <-]; exact E1]. apply accept_suffix in E2.
  destruct (accept c s2) as [s3|] eqn:E3; intros [= _ <-]; [apply accept_suffix in E3|]; eauto using suffix_trans.
Qed.
Lemma float_token_suffix rs : suffix_of (snd (float_token rs)) rs.
Proof.
  unfold float_token.
  destruct (accept3 (is2 110 78) (is2 97 65) (is2 110 78) ([], rs)) as [nan st] eqn:E1. apply accept3_suffix in E1. cbn [snd] in E1.
  destruct nan; [exact E1|].
  destruct (accept3 (is2 105 73) (is2 110 78) (is2 102 70) (try_accept is_sign st)) as [inf st2] eqn:E2.
  apply accept3_suffix in E2. pose proof (suffix_trans _ _ _ (suffix_trans _ _ _ E2 (try_accept_suffix is_sign st)) E1) as E3. clear E2 E1.
  destruct inf; [exact E3|].
  match goal with |- context [match ?m with pair _ _ => _ end] => destruct m as [[digits exp] st3] eqn:E4 end.
  assert (E5 : suffix_of (snd st3) (snd st2)).
  { destruct (accept (fun r => r =? 48) st2) as [s1|] eqn:A1.
    - apply accept_suffix in A1. destruct (accept (is2 120 88) s1) as [s2|] eqn:A2.
      + apply accept_suffix in A2. injection E4 as _ _ <-. eauto using suffix_trans.
      + injection E4 as _ _ <-. exact A1.
    - injection E4 as _ _ <-. apply suffix_refl. }
  clear E4. pose proof (suffix_trans _ _ _ E5 E3) as E6. clear E5 E3.
  set (st4 := accept_many (fun r => digits r || (r =? 95)) st3).
  assert (E7 : suffix_of (snd st4) rs) by (eapply suffix_trans; [apply accept_many_suffix|exact E6]).
  set (st5 := match accept (fun r => r =? 46) st4 with Some s1 => accept_many (fun r => digits r || (r =? 95)) s1 | None => st4 end).
  assert (E8 : suffix_of (snd st5) rs).
  { unfold st5. destruct (accept (fun r => r =? 46) st4) as [s1|] eqn:A; [|exact E7]. apply accept_suffix in A.
    eapply suffix_trans; [apply accept_many_suffix|]. eauto using suffix_trans. }
  destruct (accept exp st5) as [s1|] eqn:A; [|exact E8]. apply accept_suffix in A.
  eapply suffix_trans; [apply accept_many_suffix|]. eapply suffix_trans; [apply try_accept_suffix|]. eauto using suffix_trans.
Qed.
Lemma scan_float_suffix rs f rest : scan_float F convert_float rs = Some (f, rest) -> suffix_of rest rs.
Proof.
  unfold scan_float. destruct (skip_space rs) as [[|r l]|] eqn:E; [discriminate| |discriminate].
  apply skip_iff in E as (w & -> & _).
  pose proof (float_token_suffix (r :: l)) as H. destruct (float_token (r :: l)) as [tok rest']. cbn [snd] in H.
  destruct (convert_float tok); [|discriminate]. intros [= _ <-]. destruct H as [p ->]. exists (w ++ p)%list. rewrite app_assoc. reflexivity.
Qed.
End Float.

Lemma scan_int_suffix rs z rest : scan_int rs = Some (z, rest) -> suffix_of rest rs.
Proof. intros H. apply scan_int_iff in H as (w & t & -> & _). exists (w ++ t)%list. rewrite app_assoc. reflexivity. Qed.

Lemma count_suffix r rs : suffix_of r rs -> (count_occ N.eq_dec r 44%N <= count_occ N.eq_dec rs 44%N)%nat.
Proof. intros [p ->]. rewrite count_occ_app. lia. Qed.
Lemma scan4_commas {A} (scan : list N -> option (A * list N)) s x :
  (forall rs y rest, scan rs = Some (y, rest) -> suffix_of rest rs) ->
  scan4 scan s = Some x -> (3 <= count_occ N.eq_dec (decode s) 44%N)%nat.
Proof.
  intros Hs H. unfold scan4 in H.
  destruct (scan (decode s)) as [[a r1]|] eqn:E1; [|discriminate].
  destruct (scan_comma r1) as [r1'|] eqn:C1; [|discriminate]. apply comma_iff in C1. subst r1.
  destruct (scan r1') as [[b r2]|] eqn:E2; [|discriminate].
  destruct (scan_comma r2) as [r2'|] eqn:C2; [|discriminate]. apply comma_iff in C2. subst r2.
  destruct (scan r2') as [[c r3]|] eqn:E3; [|discriminate].
  destruct (scan_comma r3) as [r3'|] eqn:C3; [|discriminate]. apply comma_iff in C3. subst r3.
  apply Hs, count_suffix in E1, E2, E3. rewrite count_occ_cons_eq in E1, E2, E3 by reflexivity. lia.
Qed.
Lemma comma_byte c s r k : decode_first c s = (r, k) -> r = 44 -> c = ","%char.
Proof.
  intros H ->. apply decode_first_cases in H as [(H & _)|(_ & p & t & _ & _ & H)]; [discriminate|].
  vm_compute in H. congruence.
Qed.
Lemma count_decode k s : (count_occ N.eq_dec (decode_go k s) 44%N <= count_occ ascii_dec s ","%char)%nat.
Proof.
  revert k; induction s as [|c s IH]; intros k; [apply le_n|]. destruct k as [|k]; cbn [decode_go].
  - destruct (decode_first c s) as [r k] eqn:E. specialize (IH k).
    destruct (N.eq_dec r 44) as [->|Hr].
    + rewrite (comma_byte _ _ _ _ E eq_refl). rewrite !count_occ_cons_eq by reflexivity. lia.
    + rewrite (count_occ_cons_neq _ _ Hr). cbn [count_occ]. destruct (ascii_dec c ","); lia.
  - specialize (IH k). cbn [count_occ]. destruct (ascii_dec c ","); lia.
Qed.
Lemma scan4_int_commas s x : scan4 scan_int s = Some x -> (3 <= count_occ ascii_dec s ","%char)%nat.
Proof. intros H. apply scan4_commas in H; [|apply scan_int_suffix]. pose proof (count_decode 0 s). unfold decode in H. lia. Qed.
Lemma scan4_float_commas F conv s x : scan4 (scan_float F conv) s = Some x -> (3 <= count_occ ascii_dec s ","%char)%nat.
Proof. intros H. apply scan4_commas in H; [|apply scan_float_suffix]. pose proof (count_decode 0 s). unfold decode in H. lia. Qed.

(** Canonical texts. *)
Lemma four_encode {A} (tok : list N -> A -> Prop) w1 t1 w2 t2 w3 t3 w4 t4 a b c d rest :
  (forall t x, tok t x -> Forall (fun r => valid_rune r = true) t) ->
  Forall blank_rune w1 -> Forall blank_rune w2 -> Forall blank_rune w3 -> Forall blank_rune w4 ->
  tok t1 a -> tok t2 b -> tok t3 c -> tok t4 d -> Forall (fun r => valid_rune r = true) rest ->
  four tok (decode (encode w1 ++ encode t1 ++ [","%char] ++ encode w2 ++ encode t2 ++ [","%char] ++
                    encode w3 ++ encode t3 ++ [","%char] ++ encode w4 ++ encode t4 ++ encode rest)) a b c d rest.
Proof.
  intros Hv W1 W2 W3 W4 T1 T2 T3 T4 Hr.
  exists w1, t1, w2, t2, w3, t3, w4, t4. split; [|tauto].
  change [","%char] with (encode [44]). rewrite <- !encode_app.
  apply decode_encode. unfold valid_runes.
  repeat (apply Forall_app; split); eauto using blank_valid; repeat constructor.
Qed.
Lemma float_literal_valid t : float_literal t -> Forall (fun r => valid_rune r = true) t.
Proof.
  intros (s & k & ip & fr & ex & -> & Hs & _ & Hip & Hfr & Hex).
  repeat (apply Forall_app; split); eauto using sign_valid, digits_valid.
  - destruct Hfr as [->|(ds & -> & Hd)]; constructor; [reflexivity|apply digits_valid, Hd].
  - destruct Hex as [->|(e & s' & k' & ds & -> & He & Hs' & _ & Hd)]; constructor; [destruct He as [-> | ->]; reflexivity|].
    apply Forall_app. split; eauto using sign_valid, digits_valid.
Qed.

Lemma border_gen F l t r b w1 w2 w3 w4 rest :
  in_int64 l -> in_int64 t -> in_int64 r -> in_int64 b ->
  Forall blank_rune w1 -> Forall blank_rune w2 -> Forall blank_rune w3 -> Forall blank_rune w4 ->
  Forall (fun x => valid_rune x = true) rest -> not_digit_first rest ->
  unmarshal_border F (encode w1 ++ itoa l ++ [","%char] ++ encode w2 ++ itoa t ++ [","%char] ++ encode w3 ++ itoa r ++ [","%char] ++ encode w4 ++ itoa b ++ encode rest)
  = Some (quad_val VInt {| QLeft := l; QTop := t; QRight := r; QBottom := b |}).
Proof.
  intros I1 I2 I3 I4 W1 W2 W3 W4 Hv Hr. unfold unmarshal_border.
  assert (H : scan4 scan_int (encode w1 ++ itoa l ++ [","%char] ++ encode w2 ++ itoa t ++ [","%char] ++ encode w3 ++ itoa r ++ [","%char] ++ encode w4 ++ itoa b ++ encode rest) = Some (l, t, r, b)).
  { apply scan4_int_iff. exists rest. split; [|tauto].
    rewrite <- (itoa_encode l), <- (itoa_encode t), <- (itoa_encode r), <- (itoa_encode b).
    apply four_encode; try assumption; try apply itoa_ok. apply int_token_valid. }
  rewrite H. reflexivity.
Qed.
Lemma border_round_trip F l t r b w1 w2 w3 w4 :
  in_int64 l -> in_int64 t -> in_int64 r -> in_int64 b ->
  Forall blank_rune w1 -> Forall blank_rune w2 -> Forall blank_rune w3 -> Forall blank_rune w4 ->
  unmarshal_border F (encode w1 ++ itoa l ++ [","%char] ++ encode w2 ++ itoa t ++ [","%char] ++ encode w3 ++ itoa r ++ [","%char] ++ encode w4 ++ itoa b)
  = Some (quad_val VInt {| QLeft := l; QTop := t; QRight := r; QBottom := b |}).
Proof.
  intros. rewrite <- (border_gen F l t r b w1 w2 w3 w4 []) by (assumption || constructor).
  f_equal. cbn [encode flat_map]. rewrite (app_nil_r (itoa b)). reflexivity.
Qed.
Lemma garbage_ignored F l t r b garbage :
  in_int64 l -> in_int64 t -> in_int64 r -> in_int64 b ->
  Forall (fun x => valid_rune x = true) garbage -> not_digit_first garbage ->
  unmarshal_border F (itoa l ++ [","%char] ++ itoa t ++ [","%char] ++ itoa r ++ [","%char] ++ itoa b ++ encode garbage)
  = Some (quad_val VInt {| QLeft := l; QTop := t; QRight := r; QBottom := b |}).
Proof. intros. apply (border_gen F l t r b [] [] [] [] garbage); assumption || constructor. Qed.
Lemma literal_ascii t : float_literal t -> Forall (fun r => r < 128) t.
Proof.
  assert (Hd : forall ds, Forall dec_digit ds -> Forall (fun r => r < 128) ds).
  { intros ds H. eapply Forall_impl; [|exact H]. unfold dec_digit. intros; lia. }
  assert (Hs : forall s k, sign_of s k -> Forall (fun r => r < 128) s).
  { intros s k [[[-> | ->] _]|[-> _]]; repeat constructor. }
  intros (s & k & ip & fr & ex & -> & H1 & _ & H2 & Hfr & Hex).
  repeat (apply Forall_app; split); eauto.
  - destruct Hfr as [->|(ds & -> & Hf)]; constructor; [reflexivity|auto].
  - destruct Hex as [->|(e & s' & k' & ds & -> & He & Hs' & _ & Hf)]; constructor; [destruct He as [-> | ->]; reflexivity|].
    apply Forall_app. split; eauto.
Qed.
Lemma padding_round_trip F (convert_float : bytes -> option F) l t r b w1 w2 w3 w4 t1 t2 t3 t4 :
  Forall blank_rune w1 -> Forall blank_rune w2 -> Forall blank_rune w3 -> Forall blank_rune w4 ->
  float_literal t1 -> float_literal t2 -> float_literal t3 -> float_literal t4 ->
  convert_float (encode t1) = Some l -> convert_float (encode t2) = Some t ->
  convert_float (encode t3) = Some r -> convert_float (encode t4) = Some b ->
  unmarshal_quad F convert_float
    (encode w1 ++ encode t1 ++ [","%char] ++ encode w2 ++ encode t2 ++ [","%char] ++ encode w3 ++ encode t3 ++ [","%char] ++ encode w4 ++ encode t4)
  = Some (quad_val VFloat {| QLeft := l; QTop := t; QRight := r; QBottom := b |}).
Proof.
  intros W1 W2 W3 W4 T1 T2 T3 T4 V1 V2 V3 V4. unfold unmarshal_quad.
  pose proof (scan4_float_ok F convert_float
    (encode w1 ++ encode t1 ++ [","%char] ++ encode w2 ++ encode t2 ++ [","%char] ++ encode w3 ++ encode t3 ++ [","%char] ++ encode w4 ++ encode t4) l t r b) as H.
  rewrite H; [reflexivity|].
  replace (encode t4) with (encode t4 ++ encode []) by apply app_nil_r.
  rewrite encode_ascii in V1, V2, V3, V4 by (apply literal_ascii; assumption).
  apply four_encode; try assumption; try (split; assumption); [|constructor].
  intros x y [Hx _]. apply float_literal_valid, Hx.
Qed.
Lemma too_few F (convert_float : bytes -> option F) s : (count_occ ascii_dec s ","%char < 3)%nat ->
  unmarshal_border F s = None /\ unmarshal_quad F convert_float s = None.
Proof.
  intros H. unfold unmarshal_border, unmarshal_quad. split.
  - destruct (scan4 scan_int s) as [x|] eqn:E; [apply scan4_int_commas in E; lia|reflexivity].
  - destruct (scan4 (scan_float F convert_float) s) as [x|] eqn:E; [apply scan4_float_commas in E; lia|reflexivity].
Qed.
Lemma trailing_garbage : exists v garbage, garbage <> [] /\ unmarshal_border Z (v ++ garbage) <> None /\
    v = $"1,2,3,4" /\ garbage = $"abc,5".
Proof. exists ($"1,2,3,4"), ($"abc,5"). split; [discriminate|]. split; [vm_compute; discriminate|auto]. Qed.
