(** Loading, for all token streams: it ends, and what happens to the decoder's stack. *)
From Coq Require Import ZArith Lia.
From Verif Require Import GoStr GoStrFacts Num Style Class Instr Xml Load LoadSpec.
Local Open Scope nat_scope.

Definition dec_of {A} (r : res A) : option decoder := match r with Got _ d | Fail d => Some d | Fuel => None end.
Definition ends {A} (r : res A) (P : decoder -> Prop) : Prop := match dec_of r with Some d => P d | None => True end.

Definition above (z s : list (option bytes)) : Prop := exists w, s = w ++ z.
Lemma above_refl : forall z, above z z. Proof. intro z. exists []. reflexivity. Qed.
Lemma above_cons : forall x z s, above z s -> above z (x :: s). Proof. intros x z s [w ->]. exists (x :: w). reflexivity. Qed.
Lemma above_trans : forall a b c, above a b -> above b c -> above a c.
Proof. intros a b c [w ->] [v ->]. exists (v ++ w). rewrite app_assoc. reflexivity. Qed.
Lemma above_tail : forall x z s, above (x :: z) s -> above z s.
Proof. intros x z s [w ->]. exists (w ++ [x]). rewrite <- app_assoc. reflexivity. Qed.
Lemma above_pop : forall n z m s, above (Some n :: z) (m :: s) -> above z s.
Proof. intros n z m s [[|y w] H]; injection H as -> ->; [apply above_refl|]. eapply above_tail. exists w. reflexivity. Qed.

(** Adjacent entries [Some b; None] *)
Fixpoint adj (b : bytes) (s : list (option bytes)) : nat :=
  match s with
  | [] => 0
  | x :: s' => (match x, s' with Some n, None :: _ => if beqb n b then 1 else 0 | _, _ => 0 end) + adj b s'
  end.

(** ** Token *)
Definition top_ok (s : list (option bytes)) : Prop := match s with None :: _ => False | _ => True end.
Lemma next_start : forall d pos n a d', next d = (Some (TStart pos n a), d') ->
  d_toks d = TStart pos n a :: d_toks d' /\ d_stk d' = Some n :: d_stk d /\ top_ok (d_stk d).
Proof.
  intros [t s] pos n a d' H. unfold next in H. cbn [d_toks d_stk] in *.
  destruct s as [|[m|] s]; cbn in H; destruct t as [|[] t]; try discriminate H; try (destruct (beqb m name); discriminate H);
    injection H as <- <- <- <-; cbn; auto.
Qed.
Lemma next_some : forall d t d', next d = (Some t, d') -> List.length (d_toks d') < List.length (d_toks d).
Proof.
  intros [t s] x d' H. unfold next in H. cbn [d_toks d_stk] in *.
  destruct s as [|[m|] s]; cbn in H; destruct t as [|[] t]; try discriminate H; try (destruct (beqb m name); try discriminate H); injection H as <- <-; cbn; lia.
Qed.
Lemma next_len : forall d, List.length (d_toks (snd (next d))) <= List.length (d_toks d).
Proof.
  intros [t s]. unfold next. cbn [d_toks d_stk].
  destruct s as [|[m|] s]; cbn; destruct t as [|[] t]; cbn; try lia; destruct (beqb m name); cbn; lia.
Qed.
Lemma next_above : forall z d, above (None :: z) (d_stk d) -> above (None :: z) (d_stk (snd (next d))).
Proof.
  intros z [t s] H. unfold next. cbn [d_toks d_stk] in *.
  destruct s as [|[m|] s].
  - destruct H as [[|] H]; discriminate H.
  - assert (Hs : above (None :: z) s). { destruct H as [[|y w] H]; [discriminate H|]. injection H as _ ->. exists w. reflexivity. }
    cbn. destruct t as [|[] t]; cbn; auto using above_cons. destruct (beqb m name); cbn; exact Hs.
  - exact H.
Qed.
Lemma next_tail : forall n z d, above (Some n :: z) (d_stk d) -> above z (d_stk (snd (next d))).
Proof.
  intros n z [t s] H. unfold next. cbn [d_toks d_stk] in *.
  destruct s as [|[m|] s].
  - destruct H as [[|] H]; discriminate H.
  - pose proof (above_pop _ _ _ _ H) as Hs. cbn. destruct t as [|[] t]; cbn; auto using above_cons. destruct (beqb m name); cbn; exact Hs.
  - eapply above_tail. exact H.
Qed.
Lemma next_not_end : forall n z d t d', next d = (Some t, d') -> (forall m, t <> TEnd m) -> above (Some n :: z) (d_stk d) -> above (Some n :: z) (d_stk d').
Proof.
  intros n z [t s] x d' H Hx A. unfold next in H. cbn [d_toks d_stk] in *.
  destruct s as [|[m|] s]; cbn in H; destruct t as [|[] t]; try discriminate H; try (destruct (beqb m name); try discriminate H); injection H as <- <-; cbn;
    auto using above_cons; exfalso; eapply Hx; reflexivity.
Qed.
Lemma adj_tl : forall b x s, adj b s <= adj b (x :: s).
Proof. intros. cbn [adj]. lia. Qed.
Lemma next_adj : forall b d, adj b (d_stk (snd (next d))) <= adj b (d_stk d).
Proof.
  intros b [t s]. unfold next. cbn [d_toks d_stk].
  destruct s as [|[m|] s].
  - destruct t as [|[] t]; cbn; lia.
  - destruct t as [|[] t]; cbn -[adj]; try lia; [cbn; lia|]. destruct (beqb m name); cbn -[adj]; apply adj_tl.
  - reflexivity.
Qed.

(** ** Loops that respect a preorder *)
Section Preorder.
Variable P : decoder -> decoder -> Prop.
Hypothesis Prefl : forall d, P d d.
Hypothesis Ptrans : forall a b c, P a b -> P b c -> P a c.
Hypothesis Pnext : forall d, P d (snd (next d)).
Definition keeps {A} (f : decoder -> res A) : Prop := forall d, ends (f d) (P d).

Lemma ends_trans : forall {A} (r : res A) a b, P a b -> ends r (P b) -> ends r (P a).
Proof. intros A [x d|d|] a b H E; cbn in *; eauto. Qed.
Ltac nx d := let E := fresh "E" in pose proof (Pnext d) as E; destruct (next d) as [[[]|] ?]; cbn [snd] in E.

Lemma skip_go_keeps : forall fuel depth, keeps (skip_go fuel depth).
Proof.
  induction fuel as [|f IH]; intros depth d; cbn [skip_go]; [exact I|].
  nx d; try (eapply ends_trans; [exact E|apply IH]); [|exact E].
  destruct depth; [exact E|]. eapply ends_trans; [exact E|apply IH].
Qed.
Lemma skip_keeps : keeps skip.
Proof. intro d. apply skip_go_keeps. Qed.
Lemma fields_keeps : forall {A} (field : nat -> bytes -> attrs -> A -> option (decoder -> res A)) chars,
  (forall pos n a acc f, field pos n a acc = Some f -> keeps f) -> forall fuel acc, keeps (fields_loop field chars fuel acc).
Proof.
  intros A field chars Hf. induction fuel as [|f IH]; intros acc d; cbn [fields_loop]; [exact I|].
  nx d; try (eapply ends_trans; [exact E|apply IH]); try exact E.
  destruct (field pos name a acc) as [g|] eqn:G.
  - specialize (Hf _ _ _ _ _ G d0). destruct (g d0) as [x d'|d'|]; cbn in *; [|eauto|exact I].
    eapply ends_trans; [eapply Ptrans; [exact E|exact Hf]|apply IH].
  - pose proof (skip_keeps d0) as Hs. destruct (skip d0) as [x d'|d'|]; cbn in *; [|eauto|exact I].
    eapply ends_trans; [eapply Ptrans; [exact E|exact Hs]|apply IH].
Qed.
Lemma map_keeps : forall {A B} (g : A -> B) f, keeps f -> keeps (fun d => map_res g (f d)).
Proof. intros A B g f H d. specialize (H d). destruct (f d); exact H. Qed.
Lemma string_keeps : keeps string_value.
Proof. intro d. apply fields_keeps. discriminate. Qed.
Lemma token_keeps : forall {A} name (on_start : nat -> bytes -> attrs -> A -> decoder -> res A) on_char,
  (forall pos n a acc d d', next d = (Some (TStart pos n a), d') -> ends (on_start pos n a acc d') (P d)) ->
  forall fuel acc, keeps (token_loop name on_start on_char fuel acc).
Proof.
  intros A name os oc Hs. induction fuel as [|f IH]; intros acc d; cbn [token_loop]; [exact I|].
  pose proof (Pnext d) as E. destruct (next d) as [[[pos n a|n|t|]|] d'] eqn:N; cbn [snd] in E;
    try (eapply ends_trans; [exact E|apply IH]); try exact E.
  - specialize (Hs pos n a acc d d' N). destruct (os pos n a acc d') as [x d''|d''|]; cbn in *; [|exact Hs|exact I].
    eapply ends_trans; [exact Hs|apply IH].
  - destruct (beqb n name); [exact E|]. eapply ends_trans; [exact E|apply IH].
Qed.
End Preorder.

Definition shorter (d d' : decoder) : Prop := List.length (d_toks d') <= List.length (d_toks d).
Lemma shorter_refl : forall d, shorter d d. Proof. intro. unfold shorter. lia. Qed.
Lemma shorter_trans : forall a b c, shorter a b -> shorter b c -> shorter a c. Proof. unfold shorter. intros. lia. Qed.
Definition adjacent (b : bytes) (d d' : decoder) : Prop := adj b (d_stk d') <= adj b (d_stk d).
Lemma adjacent_refl : forall b d, adjacent b d d. Proof. unfold adjacent. lia. Qed.
Lemma adjacent_trans : forall b x y z, adjacent b x y -> adjacent b y z -> adjacent b x z. Proof. unfold adjacent. intros. lia. Qed.
Definition blocked (z : list (option bytes)) (d d' : decoder) : Prop := above (None :: z) (d_stk d) -> above (None :: z) (d_stk d').
Lemma blocked_refl : forall z d, blocked z d d. Proof. unfold blocked. auto. Qed.
Lemma blocked_trans : forall z a b c, blocked z a b -> blocked z b c -> blocked z a c. Proof. unfold blocked. auto. Qed.
Lemma next_shorter : forall d, shorter d (snd (next d)). Proof. exact next_len. Qed.
Lemma next_adjacent : forall b d, adjacent b d (snd (next d)). Proof. exact next_adj. Qed.
Lemma next_blocked : forall z d, blocked z d (snd (next d)). Proof. exact next_above. Qed.
#[export] Hint Resolve next_shorter next_adjacent next_blocked shorter_refl shorter_trans next_len adjacent_refl adjacent_trans next_adj blocked_refl blocked_trans next_above : keeps.

(** ** Leaves do not go below their element *)
Definition closes {A} (f : decoder -> res A) : Prop :=
  forall d n z, d_stk d = Some n :: z -> ends (f d) (fun d' => above z (d_stk d')).

Lemma skip_go_closes : forall fuel w d z, d_stk d = w ++ z -> w <> [] ->
  ends (skip_go fuel (pred (List.length w)) d) (fun d' => above z (d_stk d')).
Proof.
  induction fuel as [|f IH]; intros w d z Hd Hw; cbn [skip_go]; [exact I|].
  destruct w as [|x w]; [congruence|]. cbn [List.length pred]. destruct d as [t s]. cbn [d_stk] in Hd. subst s.
  unfold next. cbn [d_stk d_toks app]. destruct x as [m|].
  - destruct t as [|[] t].
    + cbn. exists (Some m :: w). reflexivity.
    + apply (IH (Some name :: Some m :: w)); [reflexivity|discriminate].
    + destruct (beqb m name); [|cbn; exists w; reflexivity].
      destruct w as [|y w]; cbn; [exists []; reflexivity|]. apply (IH (y :: w)); [reflexivity|discriminate].
    + apply (IH (Some m :: w)); [reflexivity|discriminate].
    + apply (IH (Some m :: w)); [reflexivity|discriminate].
  - cbn. exists (None :: w). reflexivity.
Qed.
Lemma skip_closes : closes skip.
Proof. intros d n z H. apply (skip_go_closes (enough d) [Some n] d z H). discriminate. Qed.

Lemma fields_closes : forall {A} (field : nat -> bytes -> attrs -> A -> option (decoder -> res A)) chars,
  (forall pos n a acc f, field pos n a acc = Some f -> closes f) ->
  forall fuel acc d n z, above (Some n :: z) (d_stk d) -> ends (fields_loop field chars fuel acc d) (fun d' => above z (d_stk d')).
Proof.
  intros A field chars Hf. induction fuel as [|f IH]; intros acc d n z Hd; cbn [fields_loop]; [exact I|].
  pose proof (next_tail n z d Hd) as T. destruct (next d) as [[t|] d'] eqn:N; cbn [snd] in T; [|exact T].
  assert (K : (forall m, t <> TEnd m) -> above (Some n :: z) (d_stk d')) by (intro; eapply next_not_end; eauto).
  destruct t as [pos m a|m|t|].
  - destruct (next_start _ _ _ _ _ N) as (_ & Hs & _).
    destruct (field pos m a acc) as [g|] eqn:G.
    + specialize (Hf _ _ _ _ _ G d' m (d_stk d) Hs). destruct (g d') as [x d''|d''|]; cbn in *; [|eapply above_trans; [eapply above_tail; exact Hd|exact Hf]|exact I].
      apply IH with (n := n). eapply above_trans; [exact Hd|exact Hf].
    + pose proof (skip_closes d' m (d_stk d) Hs) as Hk. destruct (skip d') as [x d''|d''|]; cbn in *; [|eapply above_trans; [eapply above_tail; exact Hd|exact Hk]|exact I].
      apply IH with (n := n). eapply above_trans; [exact Hd|exact Hk].
  - exact T.
  - apply IH with (n := n). apply K. discriminate.
  - apply IH with (n := n). apply K. discriminate.
Qed.
Lemma fields_closes' : forall {A} (field : nat -> bytes -> attrs -> A -> option (decoder -> res A)) chars acc,
  (forall pos n a acc f, field pos n a acc = Some f -> closes f) -> closes (fun d => fields_loop field chars (enough d) acc d).
Proof. intros A field chars acc H d n z Hd. eapply fields_closes; [exact H|]. rewrite Hd. apply above_refl. Qed.
Lemma string_closes : closes string_value.
Proof. apply fields_closes'. discriminate. Qed.
Lemma map_closes : forall {A B} (g : A -> B) f, closes f -> closes (fun d => map_res g (f d)).
Proof. intros A B g f H d n z Hd. specialize (H d n z Hd). destruct (f d); exact H. Qed.

(** ** Fuel suffices *)
Definition returns {A} (r : res A) : Prop := r <> Fuel.
Lemma skip_go_returns : forall fuel depth d, List.length (d_toks d) < fuel -> returns (skip_go fuel depth d).
Proof.
  induction fuel as [|f IH]; intros depth d H; cbn [skip_go]; [lia|].
  destruct (next d) as [[t|] d'] eqn:N; [|discriminate]. pose proof (next_some _ _ _ N).
  destruct t; try (apply IH; lia). destruct depth; [discriminate|apply IH; lia].
Qed.
Lemma skip_returns : forall d, returns (skip d).
Proof. intro d. apply skip_go_returns. unfold enough. lia. Qed.
Lemma skip_shorter : forall d, ends (skip d) (shorter d).
Proof. apply skip_keeps; eauto with keeps. Qed.

(** [f] returns when the tokens are fewer than [N]. *)
Lemma fields_returns : forall {A} (field : nat -> bytes -> attrs -> A -> option (decoder -> res A)) chars N,
  (forall pos n a acc f d, field pos n a acc = Some f -> List.length (d_toks d) < N -> returns (f d)) ->
  (forall pos n a acc f, field pos n a acc = Some f -> keeps shorter f) ->
  forall fuel acc d, List.length (d_toks d) < fuel -> List.length (d_toks d) <= N -> returns (fields_loop field chars fuel acc d).
Proof.
  intros A field chars N Hf Hk. induction fuel as [|f IH]; intros acc d H HN; cbn [fields_loop]; [lia|].
  destruct (next d) as [[t|] d'] eqn:E; [|discriminate]. pose proof (next_some _ _ _ E).
  destruct t as [pos n a|n|t|]; try (apply IH; lia); try discriminate.
  destruct (field pos n a acc) as [g|] eqn:G.
  - pose proof (Hf _ _ _ _ _ d' G ltac:(lia)) as R. pose proof (Hk _ _ _ _ _ G d') as S.
    destruct (g d') as [x d''|d''|]; [|discriminate|congruence]. unfold ends, shorter in S. cbn in S. apply IH; lia.
  - pose proof (skip_returns d') as R. pose proof (skip_shorter d') as S.
    destruct (skip d') as [x d''|d''|]; [|discriminate|congruence]. unfold ends, shorter in S. cbn in S. apply IH; lia.
Qed.
Lemma string_returns : forall d, returns (string_value d).
Proof. intro d. apply fields_returns with (N := List.length (d_toks d)); try discriminate; unfold enough; lia. Qed.
Lemma string_shorter : forall d, ends (string_value d) (shorter d).
Proof. apply string_keeps; eauto with keeps. Qed.
Lemma token_returns : forall {A} name (on_start : nat -> bytes -> attrs -> A -> decoder -> res A) on_char N,
  (forall pos n a acc d, List.length (d_toks d) < N -> returns (on_start pos n a acc d)) ->
  (forall pos n a acc, keeps shorter (on_start pos n a acc)) ->
  forall fuel acc d, List.length (d_toks d) < fuel -> List.length (d_toks d) <= N -> returns (token_loop name on_start on_char fuel acc d).
Proof.
  intros A name os oc N Hs Hk. induction fuel as [|f IH]; intros acc d H HN; cbn [token_loop]; [lia|].
  destruct (next d) as [[t|] d'] eqn:E; [|discriminate]. pose proof (next_some _ _ _ E).
  destruct t as [pos n a|n|t|]; try (apply IH; lia).
  - pose proof (Hs pos n a acc d' ltac:(lia)) as R. pose proof (Hk pos n a acc d') as S.
    destruct (os pos n a acc d') as [x d''|d''|]; [|discriminate|congruence]. unfold ends, shorter in S. cbn in S. apply IH; lia.
  - destruct (beqb n name); [discriminate|apply IH; lia].
Qed.

Lemma iface_shorter : forall {A} (f : decoder -> res A), keeps shorter f -> keeps shorter (unmarshal_interface f).
Proof.
  intros A f H d. unfold unmarshal_interface. specialize (H (mkDec (d_toks d) (push_eof (d_stk d)))).
  destruct (f _) as [x d'|d'|]; unfold ends, shorter in *; cbn in *; auto.
  destruct (pop_eof (d_stk d')) as [[] s]; cbn; exact H.
Qed.
Lemma iface_returns : forall {A} (f : decoder -> res A) d, (forall s, returns (f (mkDec (d_toks d) s))) -> returns (unmarshal_interface f d).
Proof.
  intros A f d H. unfold unmarshal_interface. specialize (H (push_eof (d_stk d))).
  destruct (f _) as [x d'|d'|]; [|discriminate|congruence]. destruct (pop_eof (d_stk d')) as [[] s]; discriminate.
Qed.
Lemma pop_above : forall z s, above (None :: z) s -> above z (snd (pop_eof s)).
Proof.
  intros z [|[n|] s] H; cbn.
  - eapply above_tail; exact H.
  - eapply above_tail; exact H.
  - destruct H as [[|y w] H]; [injection H as ->; apply above_refl|injection H as _ ->]. eapply above_tail. exists w. reflexivity.
Qed.
Lemma pop_adj : forall b s, adj b (snd (pop_eof s)) <= adj b s.
Proof. intros b [|[n|] s]; cbn [pop_eof snd]; auto using adj_tl. Qed.
Lemma iface_closes : forall {A} (f : decoder -> res A), (forall z, keeps (blocked z) f) -> closes (unmarshal_interface f).
Proof.
  intros A f H d n z Hd. unfold unmarshal_interface. rewrite Hd. cbn [push_eof].
  specialize (H z (mkDec (d_toks d) (Some n :: None :: z))). unfold blocked in H.
  assert (H0 : above (None :: z) (d_stk (mkDec (d_toks d) (Some n :: None :: z)))) by (exists [Some n]; reflexivity).
  destruct (f _) as [x d'|d'|]; unfold ends in *; cbn [dec_of] in *; [|cbn; apply pop_above; auto|exact I].
  pose proof (pop_above z (d_stk d') (H H0)) as K. destruct (pop_eof (d_stk d')) as [[] s]; exact K.
Qed.
Lemma iface_adj : forall b {A} (f : decoder -> res A), keeps (adjacent b) f ->
  forall d n z, d_stk d = Some n :: z -> n <> b -> ends (unmarshal_interface f d) (fun d' => adj b (d_stk d') <= adj b z).
Proof.
  intros b A f H d n z Hd Hn. unfold unmarshal_interface. rewrite Hd. cbn [push_eof].
  specialize (H (mkDec (d_toks d) (Some n :: None :: z))).
  assert (E : adj b (Some n :: None :: z) = adj b z).
  { cbn. destruct (beqb n b) eqn:B; [apply beqb_eq in B; congruence|]. reflexivity. }
  destruct (f _) as [x d'|d'|]; unfold ends, adjacent in *; cbn [dec_of d_stk] in *; try rewrite E in H; auto; pose proof (pop_adj b (d_stk d')) as P.
  - destruct (pop_eof (d_stk d')) as [[] s]; cbn in *; lia.
  - cbn in *. lia.
Qed.
