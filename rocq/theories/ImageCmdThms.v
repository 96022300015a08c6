(** Proofs about cmd/image (C107). *)
From Coq Require Import Lia.
From Verif Require Import GoStr GoFmt Utf8 Utf8Facts PageSpec PageFacts Json JsonSpec JsonFacts DumpFacts ImageCmd ImageCmdSpec.
Local Open Scope nat_scope.

Lemma hex_read : forall n, (n < 16)%N -> hex_value (hex n) = Some n.
Proof.
  intros n H. assert (K : In n (map N.of_nat (seq 0 16))) by (apply in_map_iff; exists (N.to_nat n); split; [apply N2Nat.id|apply in_seq; lia]).
  clear H. cbn in K. repeat (destruct K as [<-|K]; [reflexivity|]). destruct K.
Qed.
Lemma hex_not_lf : forall n r c, In c (hex_digits n r) -> c <> lf.
Proof.
  induction n as [|n IH]; intros r c H; [destruct H|]. cbn [hex_digits] in H. apply in_app_or in H as [H|[<-|[]]]; [exact (IH _ _ H)|]. intros E.
  assert (M : (r mod 16 < 16)%N) by (apply N.mod_lt; discriminate). assert (K := hex_read _ M). rewrite E in K. discriminate K.
Qed.
Definition finish (raw : bool) (n : N) (acc rest : bytes) : option (bytes * bytes) := unquote_go Plain (rev (if raw then [byte n] else encode_rune n) ++ acc) rest.
Lemma hex_digits_read : forall k raw a r acc rest m, (r < 16 ^ N.of_nat (S k))%N ->
  unquote_go (Hex raw (S k + m) a) acc (hex_digits (S k) r ++ rest) =
  match m with O => finish raw (16 ^ N.of_nat (S k) * a + r) acc rest | S _ => unquote_go (Hex raw m (16 ^ N.of_nat (S k) * a + r)) acc rest end.
Proof.
  induction k as [|k IH]; intros raw a r acc rest m H.
  - cbn [hex_digits app]. assert (R : (r mod 16 = r)%N) by (apply N.mod_small; exact H). rewrite R. cbn [unquote_go Nat.add]. rewrite hex_read by exact H.
    change (16 ^ N.of_nat 1)%N with 16%N. destruct m; reflexivity.
  - change (hex_digits (S (S k)) r) with (hex_digits (S k) (r / 16) ++ [hex (r mod 16)]). rewrite <- app_assoc. replace (S (S k) + m) with (S k + S m) by lia.
    assert (E : (16 ^ N.of_nat (S (S k)) = 16 * 16 ^ N.of_nat (S k))%N) by (rewrite (Nat2N.inj_succ (S k)), N.pow_succ_r'; reflexivity). rewrite E in H.
    rewrite IH by (apply N.div_lt_upper_bound; [discriminate|exact H]). cbn [app unquote_go]. assert (M : (r mod 16 < 16)%N) by (apply N.mod_lt; discriminate). rewrite (hex_read _ M).
    assert (D := N.div_mod r 16 ltac:(discriminate)).
    replace (16 * (16 ^ N.of_nat (S k) * a + r / 16) + r mod 16)%N with (16 ^ N.of_nat (S (S k)) * a + r)%N by (rewrite E, N.mul_add_distr_l, N.mul_assoc, <- N.add_assoc, <- D; reflexivity).
    destruct m; reflexivity.
Qed.
Lemma hex_read_all : forall n raw r acc rest, n <> 0 -> (r < 16 ^ N.of_nat n)%N -> unquote_go (Hex raw n 0) acc (hex_digits n r ++ rest) = finish raw r acc rest.
Proof.
  intros [|k] raw r acc rest Hn H; [congruence|]. assert (K := hex_digits_read k raw 0 r acc rest 0 H). rewrite Nat.add_0_r, N.mul_0_r in K. exact K.
Qed.

Section Quote.
Variable is_print : N -> bool.
Hypothesis Hlf : is_print 10 = false.

Lemma plain_read : forall p acc rest, (forall c, In c p -> Ascii.eqb c """"%char = false /\ Ascii.eqb c "\"%char = false /\ Ascii.eqb c lf = false) ->
  unquote_go Plain acc (p ++ rest) = unquote_go Plain (rev p ++ acc) rest.
Proof.
  induction p as [|c p IH]; intros acc rest H; [reflexivity|]. cbn [app unquote_go rev]. destruct (H c (or_introl eq_refl)) as (-> & -> & ->).
  rewrite IH by (intros c' Hc'; apply H; right; exact Hc'). rewrite <- app_assoc. reflexivity.
Qed.
Lemma rune_plain : forall r c, r <> 34%N -> r <> 92%N -> r <> 10%N -> In c (encode_rune r) -> Ascii.eqb c """"%char = false /\ Ascii.eqb c "\"%char = false /\ Ascii.eqb c lf = false.
Proof.
  intros r c H1 H2 H3 Hc.
  assert (K : forall d, (N_of_ascii d < 128)%N -> N_of_ascii d <> r -> Ascii.eqb c d = false).
  { intros d Hd Hn. apply Ascii.eqb_neq. intros ->. exact (Hn (encode_rune_bytes r d Hc Hd)). }
  repeat split; apply K; try reflexivity; intros E; [apply H1|apply H2|apply H3]; rewrite <- E; reflexivity.
Qed.
Lemma quote_rune_read : forall r acc rest, valid_rune r = true -> unquote_go Plain acc (quote_rune is_print r ++ rest) = unquote_go Plain (rev (encode_rune r) ++ acc) rest.
Proof.
  intros r acc rest V. unfold quote_rune.
  destruct (r =? 34)%N eqn:E1; [apply N.eqb_eq in E1; subst r; reflexivity|]. destruct (r =? 92)%N eqn:E2; [apply N.eqb_eq in E2; subst r; reflexivity|]. cbn [orb].
  destruct (is_print r) eqn:Ep.
  { apply plain_read. intros c Hc. apply N.eqb_neq in E1, E2. apply (rune_plain r); try assumption. intros ->. congruence. }
  destruct (r =? 7)%N eqn:E; [apply N.eqb_eq in E; subst r; reflexivity|]; clear E. destruct (r =? 8)%N eqn:E; [apply N.eqb_eq in E; subst r; reflexivity|]; clear E.
  destruct (r =? 12)%N eqn:E; [apply N.eqb_eq in E; subst r; reflexivity|]; clear E. destruct (r =? 10)%N eqn:E; [apply N.eqb_eq in E; subst r; reflexivity|]; clear E.
  destruct (r =? 13)%N eqn:E; [apply N.eqb_eq in E; subst r; reflexivity|]; clear E. destruct (r =? 9)%N eqn:E; [apply N.eqb_eq in E; subst r; reflexivity|]; clear E.
  destruct (r =? 11)%N eqn:E; [apply N.eqb_eq in E; subst r; reflexivity|]; clear E.
  destruct ((r <? 32) || (r =? 127))%N eqn:E6.
  { assert (L : (r < 128)%N) by (apply orb_true_iff in E6 as [E6|E6]; [apply N.ltb_lt in E6; lia|apply N.eqb_eq in E6; lia]).
    change (unquote_go (Hex true 2 0) acc (hex_digits 2 r ++ rest) = unquote_go Plain (rev (encode_rune r) ++ acc) rest).
    rewrite hex_read_all by (try discriminate; change (16 ^ N.of_nat 2)%N with 256%N; lia). unfold finish. unfold encode_rune. rewrite V.
    replace (r <? 128)%N with true by (symmetry; apply N.ltb_lt; exact L). reflexivity. }
  destruct (r <? 65536)%N eqn:E7.
  - change (unquote_go (Hex false 4 0) acc (hex_digits 4 r ++ rest) = unquote_go Plain (rev (encode_rune r) ++ acc) rest).
    apply N.ltb_lt in E7. apply hex_read_all; [discriminate|exact E7].
  - change (unquote_go (Hex false 8 0) acc (hex_digits 8 r ++ rest) = unquote_go Plain (rev (encode_rune r) ++ acc) rest).
    apply hex_read_all; [discriminate|]. apply valid_rune_bounds in V. change (16 ^ N.of_nat 8)%N with 4294967296%N. lia.
Qed.
Lemma quote_read : forall n s k acc rest, List.length s <= n -> k <= List.length s ->
  unquote_go Plain acc (quote_go is_print k s ++ rest) = unquote_go Plain (rev (skipn k s) ++ acc) rest.
Proof.
  induction n as [|n IH]; intros s k acc rest Hn Hk.
  { destruct s; [|cbn in Hn; lia]. cbn in Hk. replace k with 0 by lia. reflexivity. }
  destruct s as [|c s]; [cbn in Hk; replace k with 0 by lia; reflexivity|]. cbn [quote_go List.length] in *. destruct k as [|k]; [|cbn [skipn]; apply IH; lia].
  destruct (decode_first c s) as [r k] eqn:D. rewrite <- app_assoc. cbn [skipn rev]. destruct (decode_first_cases _ _ _ _ D) as [(-> & -> & _)|(V & p & t & -> & <- & Ep)].
  - change ((0 =? 0) && (rune_error =? rune_error)%N) with true. cbn iota.
    change (unquote_go (Hex true 2 0) acc (hex_digits 2 (N_of_ascii c) ++ quote_go is_print 0 s ++ rest) = unquote_go Plain ((rev s ++ [c]) ++ acc) rest).
    rewrite hex_read_all by (try discriminate; exact (N_of_ascii_lt c)). unfold finish. rewrite IH by lia. unfold byte. rewrite ascii_N_embedding. cbn [rev app skipn]. rewrite <- app_assoc. reflexivity.
  - assert (Q : (((List.length p =? 0) && (r =? rune_error)%N)%bool) = false).
    { apply andb_false_iff. destruct p; [right|left; reflexivity]. apply N.eqb_neq. intros ->. discriminate Ep. }
    rewrite Q, quote_rune_read by exact V. rewrite app_length in Hn. rewrite IH by (rewrite app_length; lia). rewrite skipn_app, skipn_all, Nat.sub_diag. cbn [app skipn].
    rewrite <- Ep, rev_app_distr. cbn [rev]. rewrite <- !app_assoc. reflexivity.
Qed.
Lemma quote_round_trip : forall s, unquoted (go_quote is_print s) = Some s.
Proof.
  intros s. unfold go_quote, unquoted. change (Ascii.eqb quote """"%char) with true. cbn iota. rewrite (quote_read (List.length s)) by lia. cbn [unquote_go skipn].
  change (Ascii.eqb quote """"%char) with true. cbn iota. rewrite app_nil_r, rev_involutive. reflexivity.
Qed.
Lemma rune_not_lf : forall r, ~ In lf (quote_rune is_print r).
Proof.
  intros r. unfold quote_rune. assert (K : forall x, x <> 10%N -> ~ In lf (encode_rune x)) by (intros x Hx H; apply Hx; symmetry; exact (encode_rune_bytes x lf H ltac:(reflexivity))).
  assert (X : forall n x, ~ In lf (backslash :: $"x" ++ hex_digits n x) /\ ~ In lf (backslash :: $"u" ++ hex_digits n x) /\ ~ In lf (backslash :: $"U" ++ hex_digits n x))
    by (intros n x; repeat split; (intros [H|[H|H]]; [discriminate H|discriminate H|exact (hex_not_lf _ _ _ H eq_refl)])).
  destruct (_ || _)%bool eqn:E. { intros [H|H]; [discriminate H|]. apply K in H; [exact H|]. intros ->. discriminate E. }
  clear E. destruct (is_print r) eqn:E. { apply K. intros ->. congruence. }
  do 7 (match goal with |- context [(r =? ?d)%N] => destruct (r =? d)%N; [intros [H|[H|[]]]; discriminate H|] end).
  destruct (_ || _)%bool; [exact (proj1 (X _ _))|]. destruct (r <? 65536)%N; [exact (proj1 (proj2 (X _ _)))|exact (proj2 (proj2 (X _ _)))].
Qed.
Lemma quote_go_lf : forall s k, ~ In lf (quote_go is_print k s).
Proof.
  induction s as [|c s IH]; intros k; [intros []|]. cbn [quote_go]. destruct k as [|k]; [|apply IH]. destruct (decode_first c s) as [r k]. intros H. apply in_app_or in H as [H|H]; [|exact (IH _ H)].
  destruct (_ && _); [|exact (rune_not_lf _ H)]. destruct H as [H|[H|H]]; try discriminate H. exact (hex_not_lf _ _ _ H eq_refl).
Qed.
Lemma quote_lf : forall s, ~ In lf (go_quote is_print s).
Proof. intros s [H|H]; [discriminate H|]. apply in_app_or in H as [H|[H|[]]]; [exact (quote_go_lf _ _ H)|discriminate H]. Qed.

Lemma image_prints : forall open_error decode_config args,
  let '(code, printed) := image_main is_print open_error decode_config args in
  match args with
  | [] => code = 1 /\ printed = $"usage: image <src>" ++ [lf]
  | src :: _ =>
      match open_error src, decode_config src with
      | Some err, _ => code = 2 /\ printed = $"ERROR: open source: " ++ err ++ [lf]
      | None, inr err => code = 2 /\ printed = $"ERROR: decode config: " ++ err ++ [lf]
      | None, inl (w, h, format) => code = 0 /\ exists q f dw dh,
          printed = ($"Source: " ++ q) ++ [lf] ++ ($"Format: " ++ f) ++ [lf] ++ ($"Dim   : w=" ++ dw ++ $", h=" ++ dh) ++ [lf] /\
          unquoted q = Some src /\ unquoted f = Some format /\ decimal w dw /\ decimal h dh /\
          ~ In lf q /\ ~ In lf f
      end
  end.
Proof.
  intros oe dc args. unfold image_main. destruct args as [|src args]; [split; reflexivity|]. destruct (oe src) as [err|]; [split; reflexivity|].
  destruct (dc src) as [[[w h] format]|err]; [|split; reflexivity]. split; [reflexivity|]. exists (go_quote is_print src), (go_quote is_print format), (itoa w), (itoa h).
  split; [rewrite <- !app_assoc; reflexivity|]. split; [apply quote_round_trip|]. split; [apply quote_round_trip|]. split; [apply itoa_decimal|]. split; [apply itoa_decimal|].
  split; apply quote_lf.
Qed.
Lemma quote_injective : forall s s', go_quote is_print s = go_quote is_print s' -> s = s'.
Proof. intros s s' H. assert (K := quote_round_trip s). rewrite H, quote_round_trip in K. congruence. Qed.
End Quote.
