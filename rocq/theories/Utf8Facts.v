(** Facts about UTF-8 encoding and decoding. *)
From Verif Require Import GoStr GoStrFacts Utf8.
Local Open Scope N_scope.

Lemma N_byte n : n < 256 -> N_of_ascii (byte n) = n.
Proof. apply N_ascii_embedding. Qed.

Lemma ltb_t a b : a < b -> (a <? b) = true. Proof. apply N.ltb_lt. Qed.
Lemma ltb_f a b : b <= a -> (a <? b) = false. Proof. apply N.ltb_ge. Qed.
Lemma leb_t a b : a <= b -> (a <=? b) = true. Proof. apply N.leb_le. Qed.
Lemma leb_f a b : b < a -> (a <=? b) = false. Proof. apply N.leb_gt. Qed.
Lemma eqb_t a b : a = b -> (a =? b) = true. Proof. apply N.eqb_eq. Qed.
Lemma eqb_f a b : a <> b -> (a =? b) = false. Proof. apply N.eqb_neq. Qed.
Ltac Nstep := match goal with
  | |- context [?a <? ?b] => first [rewrite (ltb_t a b) by lia | rewrite (ltb_f a b) by lia]
  | |- context [?a <=? ?b] => first [rewrite (leb_t a b) by lia | rewrite (leb_f a b) by lia]
  | |- context [?a =? ?b] => first [rewrite (eqb_t a b) by lia | rewrite (eqb_f a b) by lia]
  end; cbn [andb orb].
Ltac Nbool := repeat Nstep.

Lemma valid_rune_bounds r : valid_rune r = true -> r <= 1114111 /\ ~ (55296 <= r <= 57343).
Proof.
  unfold valid_rune. intros H. apply orb_true_iff in H as [H|H].
  - apply N.ltb_lt in H. lia.
  - apply andb_true_iff in H as [H1 H2]. apply N.ltb_lt in H1. apply N.leb_le in H2. lia.
Qed.

Lemma valid_rune_intro r : r <= 1114111 -> ~ (55296 <= r <= 57343) -> valid_rune r = true.
Proof.
  intros H1 H2. unfold valid_rune. destruct (N.ltb_spec r 55296); [reflexivity|].
  Nbool. reflexivity.
Qed.

Lemma decode_go_skip p s : decode_go (List.length p) (p ++ s) = decode_go 0 s.
Proof.
  induction p as [|c p IH]; [reflexivity|]. exact IH.
Qed.

Lemma N3 n d : d <> 0 -> exists q m, n / d = q /\ n mod d = m /\ n = d * q + m /\ m < d.
Proof.
  intros Hd. exists (n / d), (n mod d). split; [reflexivity|]. split; [reflexivity|].
  split; [apply N.div_mod, Hd | apply N.mod_lt, Hd].
Qed.

Lemma decode_encode_rune r s : valid_rune r = true ->
  decode_go 0 (encode_rune r ++ s) = r :: decode_go 0 s.
Proof.
  intros Hv. pose proof (valid_rune_bounds r Hv) as [Hmax Hsur].
  unfold encode_rune. rewrite Hv.
  destruct (N.ltb_spec r 128) as [H1|H1].
  { cbn [app decode_go]. unfold decode_first. rewrite N_byte by lia.
    destruct (N.ltb_spec r 128); [reflexivity|lia]. }
  destruct (N.ltb_spec r 2048) as [H2|H2].
  { destruct (N3 r 64 ltac:(lia)) as (q & m & -> & -> & Hr & Hm).
    cbn [app decode_go]. unfold decode_first. rewrite !N_byte by lia.
    unfold between. Nbool; cbn [andb decode_go]; f_equal; lia. }
  destruct (N.ltb_spec r 65536) as [H3|H3].
  { assert (E : r / 4096 = (r / 64) / 64) by (rewrite N.div_div by lia; reflexivity). rewrite E. clear E.
    destruct (N3 r 64 ltac:(lia)) as (q & m & -> & -> & Hr & Hm).
    destruct (N3 q 64 ltac:(lia)) as (q' & m' & -> & -> & Hr' & Hm').
    cbn [app decode_go]. unfold decode_first. rewrite !N_byte by lia.
    unfold between. clear Hv Hmax.
    destruct (N.eqb_spec (224 + q') 224), (N.eqb_spec (224 + q') 237); try lia;
      Nbool; cbn [andb decode_go]; f_equal; lia. }
  assert (E : r / 4096 = (r / 64) / 64) by (rewrite N.div_div by lia; reflexivity). rewrite E. clear E.
  assert (E : r / 262144 = ((r / 64) / 64) / 64) by (rewrite !N.div_div by lia; reflexivity). rewrite E. clear E.
  destruct (N3 r 64 ltac:(lia)) as (q & m & -> & -> & Hr & Hm).
  destruct (N3 q 64 ltac:(lia)) as (q' & m' & -> & -> & Hr' & Hm').
  destruct (N3 q' 64 ltac:(lia)) as (q'' & m'' & -> & -> & Hr'' & Hm'').
  cbn [app decode_go]. unfold decode_first. rewrite !N_byte by lia.
  unfold between. clear Hv Hsur.
  destruct (N.eqb_spec (240 + q'') 240), (N.eqb_spec (240 + q'') 244); try lia;
    Nbool; cbn [andb decode_go]; f_equal; lia.
Qed.

Definition valid_runes (rs : list N) : Prop := Forall (fun r => valid_rune r = true) rs.

Lemma decode_encode rs : valid_runes rs -> decode (encode rs) = rs.
Proof.
  unfold decode, encode. induction 1 as [|r rs Hr _ IH]; [reflexivity|].
  cbn [flat_map]. rewrite decode_encode_rune by assumption. congruence.
Qed.
Lemma encode_inj a b : valid_runes a -> valid_runes b -> encode a = encode b -> a = b.
Proof. intros Ha Hb H. rewrite <- (decode_encode a), <- (decode_encode b), H by assumption. reflexivity. Qed.
Lemma encode_app a b : encode (a ++ b) = encode a ++ encode b.
Proof. apply flat_map_app. Qed.

Lemma N_of_ascii_lt c : N_of_ascii c < 256.
Proof. apply N_ascii_bounded. Qed.

Lemma valid_rune_error : valid_rune rune_error = true.
Proof. reflexivity. Qed.

Lemma between_spec lo b hi : between lo b hi = true -> lo <= b <= hi.
Proof.
  unfold between. intros H. apply andb_true_iff in H as [H1 H2].
  apply N.leb_le in H1. apply N.leb_le in H2. lia.
Qed.

(** What one decoding step can produce: an invalid byte, or a complete encoding of a
    valid rune. *)
Lemma decode_first_cases c s r k : decode_first c s = (r, k) ->
  (r = rune_error /\ k = O /\ 128 <= N_of_ascii c) \/
  (valid_rune r = true /\ exists p t, s = p ++ t /\ List.length p = k /\ c :: p = encode_rune r).
Proof.
  intros H. unfold decode_first in H.
  pose proof (N_of_ascii_lt c) as Hc.
  destruct (N.ltb_spec (N_of_ascii c) 128) as [H1|H1].
  { injection H as <- <-. right. assert (valid_rune (N_of_ascii c) = true) as Hv.
    { apply valid_rune_intro; lia. }
    split; [exact Hv|]. exists [], s. split; [reflexivity|]. split; [reflexivity|].
    unfold encode_rune. rewrite Hv. Nbool. unfold byte. rewrite ascii_N_embedding. reflexivity. }
  destruct (between 194 (N_of_ascii c) 223) eqn:B2.
  { apply between_spec in B2. destruct s as [|c1 s]; [injection H as <- <-; auto|].
    destruct (between 128 (N_of_ascii c1) 191) eqn:Bc; [|injection H as <- <-; auto].
    apply between_spec in Bc. injection H as <- <-. right.
    set (x := N_of_ascii c) in *. set (y := N_of_ascii c1) in *.
    assert (Hv : valid_rune ((x - 192) * 64 + (y - 128)) = true) by (apply valid_rune_intro; lia).
    split; [exact Hv|]. exists [c1], s. split; [reflexivity|]. split; [reflexivity|].
    unfold encode_rune. rewrite Hv.
    assert (Hd : ((x - 192) * 64 + (y - 128)) / 64 = x - 192) by (symmetry; apply (N.div_unique _ _ _ (y - 128)); lia).
    assert (Hm : ((x - 192) * 64 + (y - 128)) mod 64 = y - 128) by (symmetry; apply (N.mod_unique _ _ (x - 192)); lia).
    rewrite Hd, Hm.
    replace (192 + (x - 192)) with x by lia. replace (128 + (y - 128)) with y by lia.
    Nbool. unfold byte, x, y. rewrite !ascii_N_embedding. reflexivity. }
  destruct (between 224 (N_of_ascii c) 239) eqn:B3.
  { apply between_spec in B3. destruct s as [|c1 [|c2 s]]; [injection H as <- <-; auto..|].
    set (x := N_of_ascii c) in *. set (y := N_of_ascii c1) in *. set (z := N_of_ascii c2) in *.
    destruct (between (if x =? 224 then 160 else 128) y (if x =? 237 then 159 else 191) && between 128 z 191) eqn:Bc;
      [|injection H as <- <-; auto].
    apply andb_true_iff in Bc as [Bc Bz]. apply between_spec in Bc. apply between_spec in Bz.
    injection H as <- <-. right. set (r := (x - 224) * 4096 + (y - 128) * 64 + (z - 128)).
    assert (Hb : 2048 <= r < 65536 /\ ~ (55296 <= r <= 57343)).
    { unfold r. destruct (N.eqb_spec x 224), (N.eqb_spec x 237); lia. }
    assert (128 <= y <= 191) as By by (destruct (N.eqb_spec x 224), (N.eqb_spec x 237); lia).
    assert (Hv : valid_rune r = true) by (apply valid_rune_intro; lia).
    split; [exact Hv|]. exists [c1; c2], s. split; [reflexivity|]. split; [reflexivity|].
    unfold encode_rune. rewrite Hv.
    assert (Hd : r / 64 = (x - 224) * 64 + (y - 128)) by (symmetry; apply (N.div_unique _ _ _ (z - 128)); lia).
    assert (Hm : r mod 64 = z - 128) by (symmetry; apply (N.mod_unique _ _ ((x - 224) * 64 + (y - 128))); lia).
    assert (Hd2 : r / 4096 = x - 224) by (symmetry; apply (N.div_unique _ _ _ ((y - 128) * 64 + (z - 128))); lia).
    assert (Hm2 : (r / 64) mod 64 = y - 128) by (rewrite Hd; symmetry; apply (N.mod_unique _ _ (x - 224)); lia).
    rewrite Hd2, Hm2, Hm.
    replace (224 + (x - 224)) with x by lia. replace (128 + (y - 128)) with y by lia.
    replace (128 + (z - 128)) with z by lia.
    Nbool. unfold byte, x, y, z. rewrite !ascii_N_embedding. reflexivity. }
  destruct (between 240 (N_of_ascii c) 244) eqn:B4; [|injection H as <- <-; auto].
  apply between_spec in B4. destruct s as [|c1 [|c2 [|c3 s]]]; [injection H as <- <-; auto..|].
  set (x := N_of_ascii c) in *. set (y := N_of_ascii c1) in *. set (z := N_of_ascii c2) in *. set (w := N_of_ascii c3) in *.
  destruct (between (if x =? 240 then 144 else 128) y (if x =? 244 then 143 else 191) && between 128 z 191 && between 128 w 191) eqn:Bc;
    [|injection H as <- <-; auto].
  apply andb_true_iff in Bc as [Bc Bw]. apply andb_true_iff in Bc as [Bc Bz].
  apply between_spec in Bc. apply between_spec in Bz. apply between_spec in Bw.
  injection H as <- <-. right. set (r := (x - 240) * 262144 + (y - 128) * 4096 + (z - 128) * 64 + (w - 128)).
  assert (128 <= y <= 191) as By by (destruct (N.eqb_spec x 240), (N.eqb_spec x 244); lia).
  assert (Hb : 65536 <= r <= 1114111).
  { unfold r. destruct (N.eqb_spec x 240), (N.eqb_spec x 244); lia. }
  assert (Hv : valid_rune r = true) by (apply valid_rune_intro; lia).
  split; [exact Hv|]. exists [c1; c2; c3], s. split; [reflexivity|]. split; [reflexivity|].
  unfold encode_rune. rewrite Hv.
  assert (Hd : r / 64 = (x - 240) * 4096 + (y - 128) * 64 + (z - 128)) by (symmetry; apply (N.div_unique _ _ _ (w - 128)); lia).
  assert (Hm : r mod 64 = w - 128) by (symmetry; apply (N.mod_unique _ _ ((x - 240) * 4096 + (y - 128) * 64 + (z - 128))); lia).
  assert (Hd2 : r / 4096 = (x - 240) * 64 + (y - 128)) by (symmetry; apply (N.div_unique _ _ _ ((z - 128) * 64 + (w - 128))); lia).
  assert (Hm2 : (r / 64) mod 64 = z - 128) by (rewrite Hd; symmetry; apply (N.mod_unique _ _ ((x - 240) * 64 + (y - 128))); lia).
  assert (Hd3 : r / 262144 = x - 240) by (symmetry; apply (N.div_unique _ _ _ ((y - 128) * 4096 + (z - 128) * 64 + (w - 128))); lia).
  assert (Hm3 : (r / 4096) mod 64 = y - 128) by (rewrite Hd2; symmetry; apply (N.mod_unique _ _ (x - 240)); lia).
  rewrite Hd3, Hm3, Hm2, Hm.
  replace (240 + (x - 240)) with x by lia. replace (128 + (y - 128)) with y by lia.
  replace (128 + (z - 128)) with z by lia. replace (128 + (w - 128)) with w by lia.
  Nbool. unfold byte, x, y, z, w. rewrite !ascii_N_embedding. reflexivity.
Qed.

Lemma decode_valid_go k s : valid_runes (decode_go k s).
Proof.
  revert k; induction s as [|c s IH]; intros k; [constructor|].
  destruct k as [|k]; [|apply IH]. cbn [decode_go]. destruct (decode_first c s) as [r k] eqn:E.
  constructor; [|apply IH].
  apply decode_first_cases in E as [(-> & _)|(H & _)]; [reflexivity|exact H].
Qed.
Lemma decode_valid s : valid_runes (decode s).
Proof. apply decode_valid_go. Qed.

Lemma decode_go_length k s : (List.length (decode_go k s) <= List.length s)%nat.
Proof.
  revert k; induction s as [|c s IH]; intros k; [apply le_n|].
  destruct k as [|k]; cbn [decode_go].
  - destruct (decode_first c s) as [r k]. simpl. specialize (IH k). lia.
  - simpl. specialize (IH k). lia.
Qed.
Lemma decode_length s : (List.length (decode s) <= List.length s)%nat.
Proof. apply decode_go_length. Qed.
Lemma decode_nonempty s : s <> [] -> decode s <> [].
Proof.
  destruct s as [|c s]; [congruence|]. intros _. unfold decode. cbn [decode_go].
  destruct (decode_first c s). discriminate.
Qed.

Definition ascii_only (s : bytes) : Prop := Forall (fun c => N_of_ascii c < 128) s.

Lemma decode_ascii s : ascii_only s -> decode s = map N_of_ascii s.
Proof.
  unfold decode. induction 1 as [|c s Hc _ IH]; [reflexivity|].
  cbn [decode_go map]. unfold decode_first.
  destruct (N.ltb_spec (N_of_ascii c) 128); [congruence|lia].
Qed.
Lemma encode_ascii rs : Forall (fun r => r < 128) rs -> encode rs = map byte rs.
Proof.
  induction 1 as [|r rs Hr _ IH]; [reflexivity|]. cbn [encode flat_map map].
  unfold encode in IH. rewrite IH. unfold encode_rune.
  assert (valid_rune r = true) as -> by (apply valid_rune_intro; lia).
  destruct (N.ltb_spec r 128); [reflexivity|lia].
Qed.
Lemma encode_rune_length r : (1 <= List.length (encode_rune r) <= 4)%nat.
Proof. unfold encode_rune. repeat match goal with |- context [if ?b then _ else _] => destruct b end; simpl; lia. Qed.
