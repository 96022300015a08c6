(** UTF-8 and case facts about Hyphenate. *)
From Coq Require Import Sorting.Sorted.
From Verif Require Import GoStr GoStrFacts Utf8 Utf8Facts HyphPattern Hyph HyphSpec HyphView HyphFacts.

Lemma decode_app_encode A m : valid_runes A -> decode (encode A ++ m) = A ++ decode m.
Proof.
  unfold decode, encode. induction 1 as [|r A Hr _ IH]; [reflexivity|].
  cbn [flat_map]. rewrite <- app_assoc, decode_encode_rune by assumption. rewrite IH. reflexivity.
Qed.
Lemma valid_cut a m : valid_utf8 a -> valid_utf8 (a ++ m) -> valid_utf8 m.
Proof.
  intros (A & HA & ->) (C & HC & H).
  assert (E : C = A ++ decode m) by (rewrite <- (decode_encode C HC), <- H; apply decode_app_encode, HA).
  exists (decode m). split; [apply decode_valid|].
  subst C. rewrite encode_app in H. apply app_inv_head in H. exact H.
Qed.
Lemma valid_app a b : valid_utf8 a -> valid_utf8 b -> valid_utf8 (a ++ b).
Proof.
  intros (A & HA & ->) (B & HB & ->). exists (A ++ B). split; [apply Forall_app; split; assumption|].
  symmetry; apply encode_app.
Qed.

Lemma pieces_valid s cs : forall last, StronglySorted lt (last :: cs) ->
  rune_boundary s last -> Forall (rune_boundary s) cs -> Forall valid_utf8 (pieces last s cs).
Proof.
  induction cs as [|c cs IH]; intros last Hs Hl Hf.
  - cbn [pieces]. destruct (2 <=? _); constructor; [apply Hl|constructor].
  - cbn [pieces]. inversion Hs as [|? ? Hs' Hlt]; subst. inversion Hf as [|? ? Hc Hf']; subst.
    inversion Hlt as [|? ? Hlc _]; subst.
    constructor; [|apply IH; assumption].
    apply (valid_cut (firstn last s)); [apply Hl|].
    rewrite <- firstn_plus. replace (last + (c - last)) with c by lia. apply Hc.
Qed.

Lemma ascii_valid s : is_ascii s -> valid_utf8 s.
Proof.
  intros H. exists (map N_of_ascii s). split.
  - apply Forall_forall. intros x Hx. apply in_map_iff in Hx as (c & <- & Hc).
    unfold is_ascii in H. rewrite Forall_forall in H. specialize (H _ Hc). apply valid_rune_intro; lia.
  - rewrite encode_ascii.
    + rewrite map_map. rewrite <- (map_id s) at 1. apply map_ext. intros c. symmetry. apply ascii_N_embedding.
    + apply Forall_forall. intros x Hx. apply in_map_iff in Hx as (c & <- & Hc).
      unfold is_ascii in H. rewrite Forall_forall in H. exact (H _ Hc).
Qed.
Lemma ascii_boundary s k : is_ascii s -> rune_boundary s k.
Proof.
  intros H. unfold is_ascii in H. rewrite <- (firstn_skipn k s) in H. apply Forall_app in H as [H1 H2].
  split; apply ascii_valid; assumption.
Qed.

(** A space is a space before and after decoding. *)
Lemma low_absurd a b : (128 <= a -> a + b < 128 -> False)%N.
Proof. lia. Qed.
Lemma encode_rune_high r c : valid_rune r = true -> In c (encode_rune r) -> (N_of_ascii c < 128)%N -> N_of_ascii c = r.
Proof.
  intros Hv Hin Hc. pose proof (valid_rune_bounds r Hv) as [Hmax _].
  unfold encode_rune in Hin. rewrite Hv in Hin.
  destruct (N.ltb_spec r 128) as [H1|H1].
  { destruct Hin as [<-|[]]. rewrite N_byte in * by lia. reflexivity. }
  assert (H64 : forall x, (x mod 64 < 64)%N) by (intros; apply N.mod_lt; lia).
  destruct (N.ltb_spec r 2048) as [H2|H2].
  { assert (r / 64 < 32)%N by (apply N.div_lt_upper_bound; [discriminate|lia]).
    specialize (H64 r).
    destruct Hin as [<-|[<-|[]]]; exfalso; (rewrite N_byte in Hc by lia); (apply low_absurd in Hc; [exact Hc|discriminate]). }
  destruct (N.ltb_spec r 65536) as [H3|H3].
  { assert (r / 4096 < 16)%N by (apply N.div_lt_upper_bound; [discriminate|lia]).
    pose proof (H64 r). pose proof (H64 (r / 64)%N).
    destruct Hin as [<-|[<-|[<-|[]]]]; exfalso; (rewrite N_byte in Hc by lia); (apply low_absurd in Hc; [exact Hc|discriminate]). }
  assert (r / 262144 < 5)%N by (apply N.div_lt_upper_bound; [discriminate|lia]).
  pose proof (H64 r). pose proof (H64 (r / 64)%N). pose proof (H64 (r / 4096)%N).
  destruct Hin as [<-|[<-|[<-|[<-|[]]]]]; exfalso; (rewrite N_byte in Hc by lia); (apply low_absurd in Hc; [exact Hc|discriminate]).
Qed.
Lemma encode_rune_low r : (r < 128)%N -> encode_rune r = [byte r].
Proof.
  intros H. unfold encode_rune. rewrite valid_rune_intro by lia.
  destruct (N.ltb_spec r 128); [reflexivity|lia].
Qed.

Lemma decode_cons c s : exists r t, decode (c :: s) = r :: decode t /\ List.length t <= List.length s /\
  ((r = rune_error /\ t = s /\ (128 <= N_of_ascii c)%N) \/
   (valid_rune r = true /\ c :: s = encode_rune r ++ t)).
Proof.
  unfold decode at 1. cbn [decode_go]. destruct (decode_first c s) as [r k] eqn:E.
  apply decode_first_cases in E as [(-> & -> & H)|(Hv & p & t & -> & <- & He)].
  - exists rune_error, s. split; [reflexivity|]. split; [lia|]. left; auto.
  - exists r, t. rewrite decode_go_skip. split; [reflexivity|].
    split; [rewrite app_length; lia|]. right. split; [exact Hv|]. rewrite <- He. reflexivity.
Qed.

Lemma in_low_decode b s : (b < 128)%N -> In (byte b) s <-> In b (decode s).
Proof.
  intros Hb. remember (List.length s) as n eqn:Hn. revert s Hn.
  induction n as [n IH] using lt_wf_ind. intros s Hn. destruct s as [|c s]; [reflexivity|].
  destruct (decode_cons c s) as (r & t & -> & Ht & H).
  assert (Hbb : N_of_ascii (byte b) = b) by (apply N_byte; lia).
  destruct H as [(-> & -> & Hc)|(Hv & He)].
  - simpl in Hn. specialize (IH (List.length s) ltac:(lia) s eq_refl). simpl. rewrite IH.
    split; intros [H|H]; try (right; exact H); exfalso.
    + subst c. rewrite Hbb in Hc. lia.
    + unfold rune_error in H. lia.
  - simpl in Hn. specialize (IH (List.length t) ltac:(lia) t eq_refl).
    rewrite He, in_app_iff, IH. simpl. split; intros [H|H]; try (right; exact H); left.
    + apply encode_rune_high in H; [congruence|exact Hv|rewrite Hbb; exact Hb].
    + subst r. rewrite encode_rune_low by exact Hb. left; reflexivity.
Qed.

Lemma in_sp_decode s : In sp s <-> In 32%N (decode s).
Proof. change sp with (byte 32). apply in_low_decode. reflexivity. Qed.

Lemma in_sp_lower ext s : (forall r, (128 <= r)%N -> ext r <> 32%N) ->
  In sp s <-> In 32%N (lower_runes ext s).
Proof.
  intros He. rewrite in_sp_decode. unfold lower_runes. rewrite in_map_iff. split.
  - intros H. exists 32%N. split; [reflexivity|exact H].
  - intros (r & Hr & Hin). replace 32%N with r; [exact Hin|].
    unfold to_lower in Hr. destruct (N.ltb_spec r 128) as [H|H].
    + destruct (_ && _) eqn:E.
      * apply andb_true_iff in E as [E1 E2]. apply N.leb_le in E1. apply N.leb_le in E2.
        unfold sanitize in Hr. rewrite valid_rune_intro in Hr by lia. lia.
      * unfold sanitize in Hr. rewrite valid_rune_intro in Hr by lia. exact Hr.
    + specialize (He r H). unfold sanitize in Hr. destruct (valid_rune (ext r)); [congruence|discriminate].
Qed.

Lemma pieces_lengths s t : List.length s = List.length t ->
  forall cs last, map (@List.length _) (pieces last s cs) = map (@List.length _) (pieces last t cs).
Proof.
  intros H cs; induction cs as [|c cs IH]; intros last; cbn [pieces map].
  - rewrite !skipn_length, H. destruct (2 <=? _); [|reflexivity]. simpl. rewrite !skipn_length, H. reflexivity.
  - rewrite !firstn_length, !skipn_length, H, IH. reflexivity.
Qed.

Lemma hyphenate_case ext pl s t : wf_lookup pl -> (forall r, (128 <= r)%N -> ext r <> 32%N) ->
  List.length s = List.length t -> lower_runes ext s = lower_runes ext t ->
  exists ps pt, hyphenate ext pl s = Some ps /\ hyphenate ext pl t = Some pt /\
    map (@List.length _) ps = map (@List.length _) pt.
Proof.
  intros Hwf He Hl Hr.
  assert (Hsp : In sp s <-> In sp t) by (rewrite !(in_sp_lower ext) by exact He; rewrite Hr; reflexivity).
  assert (Hdec : in_scope s \/ ~ in_scope s).
  { unfold in_scope. destruct (in_dec ascii_dec sp s); [right; tauto|].
    destruct (le_dec 3 (List.length s)), (le_dec (List.length s) 100); try (right; lia). left; tauto. }
  destruct Hdec as [Hin|Hout].
  - assert (Hin' : in_scope t) by (unfold in_scope in *; rewrite <- Hl; tauto).
    destruct (hyphenate_in ext pl Hwf s Hin) as (cs & Hcs & ->).
    destruct (hyphenate_in ext pl Hwf t Hin') as (ct & Hct & ->).
    rewrite Hr in Hcs. rewrite (liang_unique _ _ _ _ Hcs Hct).
    do 2 eexists. split; [reflexivity|]. split; [reflexivity|]. apply pieces_lengths, Hl.
  - assert (Hout' : ~ in_scope t) by (unfold in_scope in *; rewrite <- Hl; tauto).
    rewrite !hyphenate_out by assumption. do 2 eexists. split; [reflexivity|]. split; [reflexivity|].
    simpl. congruence.
Qed.

(** Every part of a word in scope has at least two bytes. *)
Lemma pieces_two (s : bytes) cs : forall last, StronglySorted lt (last :: cs) ->
  (forall j k, In j (last :: cs) -> In k cs -> j < k -> j + 2 <= k) ->
  Forall (fun k => k < List.length s) cs ->
  Forall (fun p => 2 <= List.length p) (pieces last s cs).
Proof.
  induction cs as [|c cs IH]; intros last Hs Hg Hf; cbn [pieces].
  - destruct (Nat.leb_spec 2 (List.length (skipn last s))); constructor; [assumption|constructor].
  - inversion Hs as [|? ? Hs' Hlt]; subst. inversion Hf as [|? ? Hc Hf']; subst.
    inversion Hlt as [|? ? Hlc _]; subst. constructor.
    + rewrite firstn_length, skipn_length.
      specialize (Hg last c (or_introl eq_refl) (or_introl eq_refl) Hlc). lia.
    + apply IH; [exact Hs'| |exact Hf']. intros j k Hj Hk. apply Hg; right; assumption.
Qed.
