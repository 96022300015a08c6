(** Proofs about Hyphenate. *)
From Coq Require Import Sorting.Sorted.
From Verif Require Import GoStr GoStrFacts Utf8 Utf8Facts HyphPattern Hyph HyphSpec HyphView.

Lemma slice_some {A} (s : list A) i j : i <= j -> j <= List.length s -> slice s i j = Some (firstn (j - i) (skipn i s)).
Proof.
  intros H1 H2. unfold slice. apply Nat.leb_le in H1. apply Nat.leb_le in H2. rewrite H1, H2. reflexivity.
Qed.

(** ** Weights *)
Lemma raise_at_spec ws k w : k < List.length ws ->
  exists ws', raise_at ws k w = Some ws' /\ List.length ws' = List.length ws /\
    forall j, nth j ws' 0 = if j =? k then Nat.max (nth j ws 0) w else nth j ws 0.
Proof.
  revert k; induction ws as [|x ws IH]; intros k Hk; [simpl in Hk; lia|].
  destruct k as [|k]; simpl.
  - eexists; split; [reflexivity|]. split; [reflexivity|].
    intros [|j]; simpl; [|reflexivity]. destruct (Nat.ltb_spec x w); lia.
  - destruct (IH k) as (ws' & -> & Hl & Hn); [simpl in Hk; lia|].
    eexists; split; [reflexivity|]. split; [simpl; lia|].
    intros [|j]; simpl; [reflexivity|]. apply Hn.
Qed.

Lemma apply_weights_spec pw : forall ws i, i + List.length pw <= List.length ws ->
  exists ws', apply_weights ws i pw = Some ws' /\ List.length ws' = List.length ws /\
    forall j, nth j ws' 0 = if i <=? j then Nat.max (nth j ws 0) (nth (j - i) pw 0) else nth j ws 0.
Proof.
  induction pw as [|w pw IH]; intros ws i Hi; simpl.
  - exists ws. split; [reflexivity|]. split; [reflexivity|].
    intros j. destruct (Nat.leb_spec i j); [|reflexivity].
    replace (match j - i with 0 | _ => 0 end) with 0 by (destruct (j - i); reflexivity). lia.
  - simpl in Hi. destruct (raise_at_spec ws i w) as (ws1 & -> & Hl1 & Hn1); [lia|].
    destruct (IH ws1 (S i)) as (ws2 & -> & Hl2 & Hn2); [lia|].
    exists ws2. split; [reflexivity|]. split; [lia|].
    intros j. rewrite Hn2, Hn1.
    destruct (Nat.leb_spec (S i) j).
    + destruct (Nat.leb_spec i j); [|lia]. destruct (Nat.eqb_spec j i); [lia|].
      destruct (j - i) as [|d] eqn:E; [lia|]. replace (j - S i) with d by lia. reflexivity.
    + destruct (Nat.eqb_spec j i) as [->|].
      * rewrite Nat.leb_refl, Nat.sub_diag. reflexivity.
      * destruct (Nat.leb_spec i j); [lia|reflexivity].
Qed.

Lemma fold_opt_inv {A B} (f : A -> B -> option A) (I : list B -> A -> Prop) (P : B -> Prop) :
  (forall done a b, P b -> I done a -> exists a', f a b = Some a' /\ I (done ++ [b]) a') ->
  forall l done a, Forall P l -> I done a -> exists a', fold_opt f a l = Some a' /\ I (done ++ l) a'.
Proof.
  intros Hstep l; induction l as [|b l IH]; intros done a Hl Hi.
  - exists a. rewrite app_nil_r. split; [reflexivity|exact Hi].
  - inversion Hl as [|? ? Hb Hl']; subst.
    destruct (Hstep done a b Hb Hi) as (a' & Ha & Hi'). cbn [fold_opt]. rewrite Ha.
    destruct (IH (done ++ [b]) a' Hl' Hi') as (a'' & -> & Hi''). exists a''.
    split; [reflexivity|]. rewrite <- app_assoc in Hi''. exact Hi''.
Qed.

Section W.
Variable pl : lookup.
Definition wf_lookup : Prop := forall k p, find pl k = Some p ->
  k = encode (letters p) /\ valid_runes (letters p) /\ List.length (weights p) = S (List.length (letters p)).
Hypothesis Hwf : wf_lookup.
Notation pats := (pats pl).
Variable rs : list N.
Hypothesis Hrs : valid_runes rs.

Let n := List.length rs.
Definition contr (size i k v : nat) : Prop :=
  exists p, find pl (encode (firstn size (skipn i rs))) = Some p /\ i <= k /\ nth_error (weights p) (k - i) = Some v.

Definition Inv (D : nat -> nat -> Prop) (ws : list nat) : Prop :=
  List.length ws = n + 1 /\ forall k, k < n + 1 ->
    (nth k ws 0 = 0 \/ exists s i, D s i /\ contr s i k (nth k ws 0)) /\
    (forall s i v, D s i -> contr s i k v -> v <= nth k ws 0).

Lemma Inv_ext D D' ws : (forall s i, D s i <-> D' s i) -> Inv D ws -> Inv D' ws.
Proof.
  intros H (Hl & Hk). split; [exact Hl|]. intros k Hkn. destruct (Hk k Hkn) as [H1 H2]. split.
  - destruct H1 as [H1|(s & i & Hd & Hc)]; [left; exact H1|right]. exists s, i. split; [apply H, Hd|exact Hc].
  - intros s i v Hd. apply H2, H, Hd.
Qed.

Lemma valid_sub i size : valid_runes (firstn size (skipn i rs)).
Proof.
  apply Forall_forall. intros x Hx. apply (proj1 (Forall_forall _ _) Hrs).
  rewrite <- (firstn_skipn i rs). apply in_or_app; right.
  rewrite <- (firstn_skipn size (skipn i rs)). apply in_or_app; left. exact Hx.
Qed.

Lemma weights_len i size p : i + size <= n -> find pl (encode (firstn size (skipn i rs))) = Some p ->
  List.length (weights p) = S size.
Proof.
  intros Hi Hf. destruct (Hwf _ _ Hf) as (He & Hv & Hl). rewrite Hl. f_equal.
  apply encode_inj in He; [|apply valid_sub|exact Hv].
  rewrite <- He, firstn_length, skipn_length. unfold n in Hi. lia.
Qed.

Lemma weigh_one_spec D ws size i : i + size <= n -> Inv D ws ->
  exists ws', weigh_one pl rs size ws i = Some ws' /\ Inv (fun s j => D s j \/ (s = size /\ j = i)) ws'.
Proof.
  intros Hi (Hl & Hk). unfold weigh_one. rewrite slice_some by (unfold n in Hi; lia).
  replace (i + size - i) with size by lia.
  destruct (find pl (encode (firstn size (skipn i rs)))) as [p|] eqn:Hf.
  - pose proof (weights_len i size p Hi Hf) as Hw.
    destruct (apply_weights_spec (weights p) ws i) as (ws' & -> & Hl' & Hn); [lia|].
    exists ws'. split; [reflexivity|]. split; [lia|].
    intros k Hkn. destruct (Hk k Hkn) as [H1 H2]. rewrite Hn. split.
    + destruct (Nat.leb_spec i k) as [Hik|Hik].
      * destruct (Nat.max_spec (nth k ws 0) (nth (k - i) (weights p) 0)) as [[Hlt ->]|[Hle ->]].
        -- right. exists size, i. split; [right; split; reflexivity|].
           exists p. split; [exact Hf|]. split; [exact Hik|].
           rewrite (nth_error_nth' _ 0); [reflexivity|].
           destruct (Nat.lt_ge_cases (k - i) (List.length (weights p))) as [H|H]; [exact H|].
           rewrite (nth_overflow (weights p)) in Hlt by exact H. lia.
        -- destruct H1 as [H1|(s & j & Hd & Hc)]; [left; exact H1|right].
           exists s, j. split; [left; exact Hd|exact Hc].
      * destruct H1 as [H1|(s & j & Hd & Hc)]; [left; exact H1|right].
        exists s, j. split; [left; exact Hd|exact Hc].
    + intros s j v [Hd|[-> ->]] Hc.
      * specialize (H2 s j v Hd Hc). destruct (i <=? k); lia.
      * destruct Hc as (p' & Hf' & Hjk & Hv). rewrite Hf in Hf'. injection Hf' as <-.
        apply Nat.leb_le in Hjk. rewrite Hjk.
        apply nth_error_nth with (d := 0) in Hv. lia.
  - exists ws. split; [reflexivity|]. split; [exact Hl|].
    intros k Hkn. destruct (Hk k Hkn) as [H1 H2]. split.
    + destruct H1 as [H1|(s & j & Hd & Hc)]; [left; exact H1|right].
      exists s, j. split; [left; exact Hd|exact Hc].
    + intros s j v [Hd|[-> ->]] Hc; [apply (H2 s j v Hd Hc)|].
      destruct Hc as (p' & Hf' & _). congruence.
Qed.

Lemma weigh_spec : exists ws, weigh pl rs = Some ws /\ List.length ws = n + 1 /\
  forall k, k <= n -> max_weight pats rs k (nth k ws 0).
Proof.
  unfold weigh. fold n.
  destruct (fold_opt_inv
    (fun ws size => fold_opt (weigh_one pl rs size) ws (seq 0 (n - size + 1)))
    (fun done ws => Inv (fun s i => In s done /\ i + s <= n) ws)
    (fun size => 1 <= size <= n)
    ) with (l := seq 1 n) (done := @nil nat) (a := repeat 0 (n + 1)) as (ws & Hws & HI).
  - intros done ws size Hsize HI.
    destruct (fold_opt_inv (weigh_one pl rs size)
      (fun dn w => Inv (fun s i => (In s done /\ i + s <= n) \/ (s = size /\ In i dn)) w)
      (fun i => i + size <= n)) with (l := seq 0 (n - size + 1)) (done := @nil nat) (a := ws)
      as (ws' & Hws' & HI').
    + intros dn w i Hi HIw. destruct (weigh_one_spec _ _ size i Hi HIw) as (w' & Hw' & HIw').
      exists w'. split; [exact Hw'|]. eapply Inv_ext; [|exact HIw'].
      intros s j. rewrite in_app_iff. simpl.
      split; [intros [[H|[-> H]]|[-> ->]] | intros [H|[-> [H|[->|[]]]]]]; tauto.
    + apply Forall_forall. intros i Hi. apply in_seq in Hi. lia.
    + eapply Inv_ext; [|exact HI]. intros s i. simpl. tauto.
    + exists ws'. split; [exact Hws'|]. eapply Inv_ext; [|exact HI'].
      intros s i. rewrite in_app_iff. simpl. rewrite in_seq. split.
      * intros [[H1 H2]|[-> H]]; [tauto|]. split; [right; left; reflexivity|lia].
      * intros [[H|[->|[]]] H2]; [tauto|]. right. split; [reflexivity|lia].
  - apply Forall_forall. intros i Hi. apply in_seq in Hi. lia.
  - split; [apply repeat_length|]. intros k Hk. split.
    + left. apply nth_repeat.
    + intros s i v [[] _].
  - exists ws. split; [exact Hws|]. destruct HI as (Hl & HI). split; [exact Hl|].
    intros k Hk. destruct (HI k ltac:(lia)) as [H1 H2]. simpl in H1, H2. split.
    + destruct H1 as [H1|(s & i & [Hs Hi] & p & Hf & Hik & Hv)]; [left; exact H1|right].
      apply in_seq in Hs.
      exists (firstn i rs), (firstn s (skipn i rs)), (skipn s (skipn i rs)), (weights p).
      assert (Hlen : List.length (firstn i rs) = i) by (rewrite firstn_length; unfold n in Hi; lia).
      split; [rewrite firstn_skipn, firstn_skipn; reflexivity|].
      split.
      { intros E. apply (f_equal (@List.length _)) in E. rewrite firstn_length, skipn_length in E.
        unfold n in Hi. simpl in E. lia. }
      split; [unfold HyphView.pats; rewrite Hf; reflexivity|]. rewrite Hlen. split; [exact Hik|exact Hv].
    + intros v (a & sub & b & pw & Hrs' & Hne & Hp & Hak & Hv).
      unfold HyphView.pats in Hp. destruct (find pl (encode sub)) as [p|] eqn:Hf; [|discriminate].
      injection Hp as <-.
      assert (Hn : n = List.length a + (List.length sub + List.length b)).
      { unfold n. rewrite Hrs', !app_length. reflexivity. }
      apply (H2 (List.length sub) (List.length a) v).
      * split; [apply in_seq; destruct sub; [congruence|simpl in *; lia] | lia].
      * exists p. split; [|split; [exact Hak|exact Hv]].
        rewrite Hrs', skipn_app, skipn_all, Nat.sub_diag. simpl.
        rewrite firstn_app, firstn_all, Nat.sub_diag. simpl. rewrite app_nil_r. exact Hf.
Qed.
End W.

Lemma max_weight_unique ps rs k w w' : max_weight ps rs k w -> max_weight ps rs k w' -> w = w'.
Proof.
  intros [[->|H1] H2] [[->|H1'] H2']; [reflexivity| | |].
  - specialize (H2 _ H1'). lia.
  - specialize (H2' _ H1). lia.
  - specialize (H2 _ H1'). specialize (H2' _ H1). lia.
Qed.

(** ** Cuts *)
Fixpoint cuts (last i : nat) (ws : list nat) : list nat :=
  match ws with
  | [] => []
  | w :: ws' => if Nat.odd w && (last + 2 <=? S i) then S i :: cuts (S i) (S i) ws' else cuts last (S i) ws'
  end.

Lemma mod2_odd w : Nat.eqb (w mod 2) 1 = Nat.odd w.
Proof.
  destruct (Nat.odd w) eqn:E.
  - apply Nat.odd_spec in E as [m ->]. apply Nat.eqb_eq.
    rewrite Nat.mul_comm, Nat.add_comm, Nat.mod_add by lia. reflexivity.
  - rewrite <- Nat.negb_even in E. apply negb_false_iff, Nat.even_spec in E as [m ->].
    apply Nat.eqb_neq. rewrite Nat.mul_comm, Nat.mod_mul by lia. lia.
Qed.

Lemma cut_loop_spec s ws : forall last i acc, last <= i -> i + List.length ws <= List.length s ->
  exists l' sl, cut_loop s last i acc ws = Some (l', sl) /\ l' <= List.length s /\
    sl ++ pieces l' s [] = acc ++ pieces last s (cuts last i ws).
Proof.
  induction ws as [|w ws IH]; intros last i acc Hli Hlen.
  - exists last, acc. cbn in *. split; [reflexivity|]. split; [lia|reflexivity].
  - simpl in Hlen. cbn [cut_loop cuts]. rewrite mod2_odd.
    destruct (Nat.odd w); cbn [andb]; [|apply IH; lia].
    rewrite slice_some by lia.
    assert (Hpl : List.length (firstn (i + 1 - last) (skipn last s)) = i + 1 - last)
      by (rewrite firstn_length, skipn_length; lia).
    rewrite Hpl.
    destruct (Nat.ltb_spec 1 (i + 1 - last)) as [H|H]; destruct (Nat.leb_spec (last + 2) (S i)); try lia.
    + destruct (IH (i + 1) (S i) (acc ++ [firstn (i + 1 - last) (skipn last s)]) ltac:(lia) ltac:(lia))
        as (l' & sl & -> & Hl' & Hsl).
      exists l', sl. split; [reflexivity|]. split; [exact Hl'|].
      rewrite Hsl, <- app_assoc. replace (i + 1) with (S i) by lia. reflexivity.
    + apply IH; lia.
Qed.

Lemma cuts_range ws : forall last i k, In k (cuts last i ws) -> i < k <= i + List.length ws.
Proof.
  induction ws as [|w ws IH]; intros last i k; [intros []|]. cbn [cuts].
  destruct (_ && _).
  - intros [<-|H]; simpl; [lia|]. apply IH in H. simpl in H. lia.
  - intros H. apply IH in H. simpl. lia.
Qed.
Lemma cuts_sorted ws : forall last i, StronglySorted lt (cuts last i ws).
Proof.
  induction ws as [|w ws IH]; intros last i; [constructor|]. cbn [cuts].
  destruct (_ && _); [|apply IH]. constructor; [apply IH|].
  apply Forall_forall. intros k Hk. apply cuts_range in Hk. lia.
Qed.
Lemma cuts_spec ws : forall last i k, last <= i ->
  In k (cuts last i ws) <->
  (i < k <= i + List.length ws /\ Nat.odd (nth (k - S i) ws 0) = true /\
   forall j, j = last \/ In j (cuts last i ws) -> j < k -> j + 2 <= k).
Proof.
  induction ws as [|w ws IH]; intros last i k Hli.
  - simpl. split; [intros []|intros [H _]; lia].
  - assert (Htail : forall l', l' <= S i ->
      (forall x, In x (cuts l' (S i) ws) -> In x (cuts last i (w :: ws))) ->
      (forall j, j = last \/ In j (cuts last i (w :: ws)) -> j < k -> S i < k -> j + 2 <= k <-> True) -> True) by (intros; exact I).
    clear Htail. cbn [cuts].
    destruct (Nat.odd w) eqn:Ho; cbn [andb].
    + destruct (Nat.leb_spec (last + 2) (S i)) as [Hd|Hd].
      * split.
        -- intros [<-|Hin].
           ++ split; [simpl; lia|]. split; [rewrite Nat.sub_diag; exact Ho|].
              intros j [->|[<-|Hj]] Hjk; [lia|lia|]. apply cuts_range in Hj. lia.
           ++ pose proof (cuts_range _ _ _ _ Hin) as Hr.
              apply IH in Hin as (H1 & H2 & H3); [|lia].
              split; [simpl; lia|]. split.
              { destruct (k - S i) as [|d] eqn:E; [lia|]. cbn [nth]. replace d with (k - S (S i)) by lia. exact H2. }
              intros j [->|[<-|Hj]] Hjk.
              ** specialize (H3 (S i) (or_introl eq_refl) ltac:(lia)). lia.
              ** apply H3; [left; reflexivity|lia].
              ** apply H3; [right; exact Hj|lia].
        -- intros (H1 & H2 & H3). destruct (Nat.eq_dec k (S i)) as [->|Hne]; [left; reflexivity|right].
           apply IH; [lia|]. simpl in H1. split; [lia|]. split.
           { destruct (k - S i) as [|d] eqn:E; [lia|]. cbn [nth] in H2. replace (k - S (S i)) with d by lia. exact H2. }
           intros j [->|Hj] Hjk; apply H3; [right; left; reflexivity|lia|right; right; exact Hj|lia].
      * split.
        -- intros Hin. pose proof (cuts_range _ _ _ _ Hin) as Hr.
           apply IH in Hin as (H1 & H2 & H3); [|lia].
           split; [simpl; lia|]. split; [|exact H3].
           destruct (k - S i) as [|d] eqn:E; [lia|]. cbn [nth]. replace d with (k - S (S i)) by lia. exact H2.
        -- intros (H1 & H2 & H3). destruct (Nat.eq_dec k (S i)) as [->|Hne].
           { specialize (H3 last (or_introl eq_refl) ltac:(lia)). lia. }
           apply IH; [lia|]. simpl in H1. split; [lia|]. split; [|exact H3].
           destruct (k - S i) as [|d] eqn:E; [lia|]. cbn [nth] in H2. replace (k - S (S i)) with d by lia. exact H2.
    + split.
      * intros Hin. pose proof (cuts_range _ _ _ _ Hin) as Hr.
        apply IH in Hin as (H1 & H2 & H3); [|lia].
        split; [simpl; lia|]. split; [|exact H3].
        destruct (k - S i) as [|d] eqn:E; [lia|]. cbn [nth]. replace d with (k - S (S i)) by lia. exact H2.
      * intros (H1 & H2 & H3). destruct (Nat.eq_dec k (S i)) as [->|Hne].
        { rewrite Nat.sub_diag in H2. cbn [nth] in H2. congruence. }
        apply IH; [lia|]. simpl in H1. split; [lia|]. split; [|exact H3].
        destruct (k - S i) as [|d] eqn:E; [lia|]. cbn [nth] in H2. replace (k - S (S i)) with d by lia. exact H2.
Qed.

(** ** The word in lower case *)
Lemma sanitize_valid r : valid_rune (sanitize r) = true.
Proof. unfold sanitize. destruct (valid_rune r) eqn:E; [exact E|reflexivity]. Qed.
Lemma encode_sanitize rs : encode rs = encode (map sanitize rs).
Proof.
  unfold encode. induction rs as [|r rs IH]; [reflexivity|]. cbn [flat_map map]. rewrite IH. f_equal.
  unfold encode_rune, sanitize. destruct (valid_rune r) eqn:E; [rewrite E|]; reflexivity.
Qed.
Lemma lower_runes_valid ext s : valid_runes (lower_runes ext s).
Proof. unfold lower_runes. apply Forall_forall. intros x Hx. apply in_map_iff in Hx as (r & <- & _). apply sanitize_valid. Qed.
Lemma lower_runes_length ext s : List.length (lower_runes ext s) = List.length (decode s).
Proof. apply map_length. Qed.

Lemma dotted_valid l : valid_runes l -> valid_runes (dotted l).
Proof. intros H. constructor; [reflexivity|]. apply Forall_app. split; [exact H|]. constructor; [reflexivity|constructor]. Qed.
Lemma dotted_length l : List.length (dotted l) = List.length l + 2.
Proof. unfold dotted. simpl. rewrite app_length. simpl. lia. Qed.

Lemma dotted_decode ext s : decode ([dot] ++ str_to_lower ext s ++ [dot]) = dotted (lower_runes ext s).
Proof.
  unfold str_to_lower. rewrite encode_sanitize, map_map.
  change [dot] with (encode [46%N]). rewrite <- !encode_app. rewrite decode_encode; [reflexivity|].
  apply dotted_valid, lower_runes_valid.
Qed.

Lemma nth_slice {A} (l : list A) a b j d : j < a -> nth j (firstn a (skipn b l)) d = nth (b + j) l d.
Proof.
  revert a b l; induction j as [|j IH]; intros a b l Hj.
  - destruct a as [|a]; [lia|]. revert l; induction b as [|b IHb]; intros [|x l]; try reflexivity.
    apply (IHb l).
  - destruct a as [|a]; [lia|]. revert l; induction b as [|b IHb]; intros [|x l]; try reflexivity.
    + apply (IH a 0 l). lia.
    + apply (IHb l).
Qed.

Section H.
Variable ext : N -> N.
Variable pl : lookup.
Hypothesis Hwf : wf_lookup pl.

Definition in_scope (s : bytes) : Prop := 3 <= List.length s <= 100 /\ ~ In sp s.

Lemma contains_sp s : contains_byte sp s = true <-> In sp s.
Proof.
  unfold contains_byte. rewrite existsb_exists. split.
  - intros (x & Hx & E). apply Ascii.eqb_eq in E. subst. exact Hx.
  - intros H. exists sp. split; [exact H|apply Ascii.eqb_refl].
Qed.

Lemma hyphenate_out s : ~ in_scope s -> hyphenate ext pl s = Some [s].
Proof.
  intros H. unfold hyphenate.
  destruct (Nat.ltb_spec (List.length s) 3); [reflexivity|].
  destruct (contains_byte sp s) eqn:E; [reflexivity|].
  destruct (Nat.ltb_spec 100 (List.length s)); [reflexivity|].
  exfalso. apply H. split; [lia|]. intros Hin. apply contains_sp in Hin. congruence.
Qed.

Lemma hyphenate_in s : in_scope s ->
  exists cs, liang_cuts (pats pl) (lower_runes ext s) cs /\
    hyphenate ext pl s = Some (pieces 0 s cs).
Proof.
  intros [Hlen Hsp]. unfold hyphenate.
  destruct (Nat.ltb_spec (List.length s) 3); [lia|].
  destruct (contains_byte sp s) eqn:E; [apply contains_sp in E; contradiction|].
  destruct (Nat.ltb_spec 100 (List.length s)); [lia|].
  rewrite dotted_decode. set (word := lower_runes ext s).
  destruct (weigh_spec pl Hwf (dotted word) (dotted_valid _ (lower_runes_valid _ _))) as (ws & -> & Hlw & Hmax).
  rewrite dotted_length in Hlw, Hmax.
  assert (Hm : List.length word = List.length (decode s)) by apply lower_runes_length.
  assert (Hm1 : 1 <= List.length word).
  { assert (s <> []) by (intros ->; simpl in Hlen; lia).
    pose proof (decode_nonempty s H1). destruct (decode s); [congruence|simpl in Hm; lia]. }
  pose proof (decode_length s) as Hm2.
  rewrite slice_some by lia.
  set (inner := firstn (List.length ws - 2 - 2) (skipn 2 ws)).
  assert (Hli : List.length inner = List.length word - 1)
    by (unfold inner; rewrite firstn_length, skipn_length; lia).
  destruct (cut_loop_spec s inner 0 0 [] (le_n _) ltac:(lia)) as (l' & sl & -> & Hl' & Hsl).
  rewrite slice_some by lia.
  exists (cuts 0 0 inner). split.
  - split; [apply cuts_sorted|]. intros k. rewrite cuts_spec by lia.
    assert (Hnth : 0 < k < List.length word -> nth (k - 1) inner 0 = nth (S k) ws 0).
    { intros Hk. unfold inner. rewrite nth_slice by lia. f_equal. lia. }
    split; intros (H1 & H2 & H3).
    + assert (Hk : 0 < k < List.length word) by lia.
      split; [exact Hk|]. split; [|exact H3].
      exists (nth (S k) ws 0). split; [apply Hmax; lia|]. rewrite <- (Hnth Hk). exact H2.
    + split; [lia|]. split; [|exact H3].
      destruct H2 as (w & Hw & Ho). rewrite (Hnth H1).
      rewrite (max_weight_unique _ _ _ _ _ (Hmax (S k) ltac:(lia)) Hw). exact Ho.
  - f_equal. rewrite <- (app_nil_l (pieces 0 s (cuts 0 0 inner))), <- Hsl.
    unfold pieces at 1.
    replace (firstn (List.length s - l') (skipn l' s)) with (skipn l' s)
      by (symmetry; apply firstn_all2; rewrite skipn_length; lia).
    destruct (Nat.ltb_spec 1 (List.length (skipn l' s))), (Nat.leb_spec 2 (List.length (skipn l' s))); try lia; [reflexivity|].
    rewrite app_nil_r. reflexivity.
Qed.
End H.

(** ** Uniqueness and consequences *)
Lemma liang_unique ps word cs cs' : liang_cuts ps word cs -> liang_cuts ps word cs' -> cs = cs'.
Proof.
  intros [Hs H] [Hs' H'].
  assert (Hin : forall k, In k cs <-> In k cs').
  { intros k. induction k as [k IH] using lt_wf_ind. rewrite H, H'.
    assert (Hg : (forall j, j = 0 \/ In j cs -> j < k -> j + 2 <= k) <-> (forall j, j = 0 \/ In j cs' -> j < k -> j + 2 <= k)).
    { split; intros Hg j [->|Hj] Hlt; try (apply Hg; [left; reflexivity|exact Hlt]);
        (apply Hg; [right; apply (IH j Hlt), Hj|exact Hlt]). }
    tauto. }
  clear H H'. revert cs' Hs' Hin. induction Hs as [|a l Hl IH Ha]; intros cs' Hs' Hin.
  - destruct cs' as [|b l']; [reflexivity|]. exfalso. apply (Hin b). left; reflexivity.
  - destruct Hs' as [|b l' Hl' Hb]; [exfalso; apply (Hin a); left; reflexivity|].
    assert (a = b).
    { assert (H1 : In a (b :: l')) by (apply Hin; left; reflexivity).
      assert (H2 : In b (a :: l)) by (apply Hin; left; reflexivity).
      rewrite Forall_forall in Ha, Hb.
      destruct H1 as [->|H1]; [reflexivity|]. destruct H2 as [->|H2]; [reflexivity|].
      specialize (Ha _ H2). specialize (Hb _ H1). lia. }
    subst b. f_equal. apply IH; [exact Hl'|]. intros k. split; intros Hk.
    + assert (H1 : In k (a :: l')) by (apply Hin; right; exact Hk).
      destruct H1 as [<-|H1]; [|exact H1]. rewrite Forall_forall in Ha. specialize (Ha _ Hk). lia.
    + assert (H1 : In k (a :: l)) by (apply Hin; right; exact Hk).
      destruct H1 as [<-|H1]; [|exact H1]. rewrite Forall_forall in Hb. specialize (Hb _ Hk). lia.
Qed.

Lemma skipn_skipn {A} a b (l : list A) : skipn a (skipn b l) = skipn (a + b) l.
Proof.
  revert l; induction b as [|b IH]; intros l; [rewrite Nat.add_0_r; reflexivity|].
  rewrite Nat.add_succ_r. destruct l as [|x l]; [rewrite !skipn_nil; reflexivity|]. apply IH.
Qed.
Lemma firstn_plus {A} a b (l : list A) : firstn (a + b) l = firstn a l ++ firstn b (skipn a l).
Proof.
  revert l; induction a as [|a IH]; intros l; [reflexivity|].
  destruct l as [|x l]; [rewrite skipn_nil, !firstn_nil; reflexivity|]. simpl. f_equal. apply IH.
Qed.
Lemma skipn_sub (s : bytes) a b : a <= b -> firstn (b - a) (skipn a s) ++ skipn b s = skipn a s.
Proof.
  intros H. replace b with (a + (b - a)) at 2 by lia.
  rewrite <- (firstn_skipn (b - a) (skipn a s)) at 2. f_equal.
  rewrite skipn_skipn. f_equal. lia.
Qed.

Lemma pieces_concat s cs : forall last, StronglySorted lt (last :: cs) -> Forall (fun k => k < List.length s) cs ->
  List.concat (pieces last s cs) =
  if List.length s - List.last cs last =? 1 then firstn (List.length s - 1 - last) (skipn last s) else skipn last s.
Proof.
  induction cs as [|c cs IH]; intros last Hs Hf.
  - cbn [pieces List.last]. rewrite skipn_length.
    destruct (Nat.leb_spec 2 (List.length s - last)); destruct (Nat.eqb_spec (List.length s - last) 1) as [E|E]; try lia.
    + simpl. rewrite app_nil_r. reflexivity.
    + replace (List.length s - 1 - last) with 0 by lia. reflexivity.
    + simpl. symmetry. apply skipn_all2. lia.
  - cbn [pieces]. change (List.concat (?x :: ?y)) with (x ++ List.concat y).
    inversion Hs as [|? ? Hs' Hlt]; subst. inversion Hf as [|? ? Hc Hf']; subst.
    inversion Hlt as [|? ? Hlc _]; subst.
    rewrite (IH c Hs' Hf').
    assert (List.last (c :: cs) last = List.last cs c) as ->.
    { clear. revert c last. induction cs as [|d cs IH]; intros c last; [reflexivity|].
      change (List.last (c :: d :: cs) last) with (List.last (d :: cs) last). rewrite (IH d last).
      symmetry. apply (IH d c). }
    destruct (_ =? 1).
    + replace (List.length s - 1 - last) with ((c - last) + (List.length s - 1 - c)) by lia.
      rewrite firstn_plus. f_equal. rewrite skipn_skipn. do 2 f_equal. lia.
    + apply skipn_sub. lia.
Qed.

Lemma last_in_sorted (cs : list nat) m : StronglySorted lt cs -> Forall (fun k => 0 < k <= m) cs -> 0 < m ->
  (In m cs <-> List.last cs 0 = m).
Proof.
  intros Hs Hf Hm. split.
  - intros Hin. revert Hm. induction Hs as [|a l Hl IH Ha]; intros Hm; [destruct Hin|].
    inversion Hf as [|? ? Hfa Hfl]; subst.
    destruct l as [|b l].
    + destruct Hin as [->|[]]; reflexivity.
    + change (List.last (a :: b :: l) 0) with (List.last (b :: l) 0).
      apply IH; [exact Hfl| |exact Hm]. destruct Hin as [->|Hin]; [|exact Hin].
      exfalso. inversion Ha as [|? ? Hab _]; subst. inversion Hfl as [|? ? Hb _]; subst. lia.
  - intros <-. destruct cs as [|a l]; [simpl in Hm; lia|].
    clear. destruct (exists_last (l := a :: l)) as (l' & x & E); [discriminate|].
    rewrite E, last_last. apply in_or_app; right; left; reflexivity.
Qed.

Lemma removelast_firstn (s : bytes) : s <> [] -> firstn (List.length s - 1) s = removelast s.
Proof.
  intros H. destruct (exists_last H) as (l & x & ->). rewrite removelast_last, app_length.
  simpl. replace (List.length l + 1 - 1) with (List.length l) by lia.
  rewrite firstn_app, firstn_all, Nat.sub_diag. simpl. apply app_nil_r.
Qed.

Lemma liang_range ps word cs (s : bytes) : liang_cuts ps word cs -> List.length word <= List.length s ->
  Forall (fun k => 0 < k < List.length s) cs.
Proof.
  intros [_ H] Hl. apply Forall_forall. intros k Hk. apply H in Hk as (Hk & _). lia.
Qed.

Lemma liang_concat ps word cs (s : bytes) : 2 <= List.length s -> liang_cuts ps word cs -> List.length word <= List.length s ->
  (In (List.length s - 1) cs -> List.concat (pieces 0 s cs) = removelast s) /\
  (~ In (List.length s - 1) cs -> List.concat (pieces 0 s cs) = s).
Proof.
  intros Hlen HL Hl. pose proof (liang_range _ _ _ _ HL Hl) as Hr. destruct HL as [Hs HL].
  rewrite pieces_concat.
  2:{ constructor; [exact Hs|]. eapply Forall_impl; [|exact Hr]. simpl. intros; lia. }
  2:{ eapply Forall_impl; [|exact Hr]. simpl. intros; lia. }
  simpl skipn. rewrite Nat.sub_0_r.
  assert (HL' := last_in_sorted cs (List.length s - 1) Hs).
  destruct HL' as [HA HB]; [eapply Forall_impl; [|exact Hr]; simpl; intros; lia|lia|].
  split; intros H.
  - rewrite (HA H). replace (List.length s - (List.length s - 1)) with 1 by lia. rewrite Nat.eqb_refl.
    apply removelast_firstn. intros ->. simpl in Hlen. lia.
  - destruct (Nat.eqb_spec (List.length s - List.last cs 0) 1) as [E|E]; [|reflexivity].
    exfalso. apply H. apply HB. lia.
Qed.
