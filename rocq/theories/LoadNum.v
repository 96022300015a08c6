(** How numbers and areas are read from attributes (C69). *)
From Coq Require Import ZArith Lia.
From Verif Require Import GoStr GoStrFacts Utf8 Scan StyleSpec ScanFacts Class ClassSpec ClassFacts Num Xml LoadSpec.

Lemma map_byte : forall v, map byte (map N_of_ascii v) = v.
Proof. intro v. rewrite map_map. rewrite <- (map_id v) at 2. apply map_ext. intro c. unfold byte. apply ascii_N_embedding. Qed.
Lemma digits_all : forall ds, forallb (fun c => is_dec (N_of_ascii c)) ds = true <-> Forall dec_digit (map N_of_ascii ds).
Proof.
  intro ds. rewrite forallb_forall, Forall_forall. split; intros H x Hx.
  - apply in_map_iff in Hx as (c & <- & Hc). apply is_dec_iff, H, Hc.
  - apply is_dec_iff. apply H. apply in_map. exact Hx.
Qed.
Lemma parse_int_iff : forall v z, parse_int v = Some z <-> int_token (map N_of_ascii v) z /\ in_int64 z.
Proof.
  intros v z.
  assert (P : forall s k ds, map N_of_ascii v = (s ++ map N_of_ascii ds)%list -> sign_of s k -> ds <> [] -> Forall dec_digit (map N_of_ascii ds) ->
    parse_int64 v = if ((-(2 ^ 63) <=? k * dec_value (map N_of_ascii ds)) && (k * dec_value (map N_of_ascii ds) <? 2 ^ 63))%Z then Some (k * dec_value (map N_of_ascii ds))%Z else None).
  { intros s k ds E Hs Hn Hd. rewrite <- (map_byte v), E. apply parse_int64_ok; [exact Hs|destruct ds; [congruence|discriminate]|exact Hd]. }
  unfold parse_int. split.
  - intro H. set (ds := match v with c :: t => if is_sign (N_of_ascii c) then t else v | [] => [] end) in H.
    assert (D : ds <> [] /\ Forall dec_digit (map N_of_ascii ds) /\ parse_int64 v = Some z).
    { destruct ds as [|d ds']; [discriminate H|]. split; [discriminate|]. destruct (forallb _ _) eqn:E; [|discriminate H]. apply digits_all in E. split; assumption. }
    destruct D as (Dn & Dd & Dz).
    assert (S : exists s k, map N_of_ascii v = (s ++ map N_of_ascii ds)%list /\ sign_of s k).
    { subst ds. destruct v as [|c t]; [congruence|]. destruct (is_sign (N_of_ascii c)) eqn:E.
      - unfold is_sign in E. apply orb_true_iff in E as [E|E]; apply N.eqb_eq in E; cbn [map]; rewrite E; [exists [43%N], 1%Z|exists [45%N], (-1)%Z]; (split; [reflexivity|]); unfold sign_of; auto.
      - exists [], 1%Z. split; [reflexivity|]. unfold sign_of. auto. }
    destruct S as (s & k & E & Hs). rewrite (P s k ds E Hs Dn Dd) in Dz. destruct (_ && _)%bool eqn:R in Dz; [|discriminate Dz]. injection Dz as <-. split; [|apply range_test; exact R].
    exists s, k, (map N_of_ascii ds). split; [exact E|]. split; [exact Hs|]. split; [destruct ds; [congruence|discriminate]|]. split; [exact Dd|reflexivity].
  - intros [(s & k & ds & E & Hs & Hn & Hd & ->) Hr].
    set (es := map byte ds). assert (Es : map N_of_ascii es = ds).
    { subst es. rewrite map_map. rewrite <- (map_id ds) at 2. apply map_ext_in. intros r Hin. apply byte_dec. rewrite Forall_forall in Hd. apply Hd, Hin. }
    assert (En : es <> []) by (subst es; destruct ds; [congruence|discriminate]).
    rewrite <- Es in E. assert (V : match v with c :: t => if is_sign (N_of_ascii c) then t else v | [] => [] end = es).
    { assert (Inj : forall a b, map N_of_ascii a = map N_of_ascii b -> a = b) by (intros a b Hab; rewrite <- (map_byte a), <- (map_byte b), Hab; reflexivity).
      destruct Hs as [[[-> | ->] _]|[-> _]].
      - apply Inj in E. subst v. destruct es as [|e es']; [congruence|]. rewrite dec_not_sign; [reflexivity|]. rewrite <- Es in Hd. inversion Hd. assumption.
      - destruct v as [|c t]; [discriminate E|]. cbn [map app] in E. injection E as Ec E. rewrite Ec. cbn. apply Inj. exact E.
      - destruct v as [|c t]; [discriminate E|]. cbn [map app] in E. injection E as Ec E. rewrite Ec. cbn. apply Inj. exact E. }
    rewrite V. destruct es as [|e es'] eqn:Ee; [congruence|]. rewrite (proj2 (digits_all (e :: es'))) by (rewrite Es; exact Hd).
    rewrite (P s k (e :: es') E Hs En) by (rewrite Es; exact Hd). rewrite Es, (proj2 (range_test _) Hr). reflexivity.
Qed.

(** Trimming *)
Lemma drop_app : forall a l, Forall (fun c => is_space (fst c) = true) a -> match l with c :: _ => is_space (fst c) = false | [] => True end -> drop_spaces (a ++ l) = l.
Proof.
  intros a l Ha Hl. induction Ha as [|[r b] a Hr _ IH]; cbn [app drop_spaces].
  - destruct l as [|[r b] l]; [reflexivity|]. cbn in *. rewrite Hl. reflexivity.
  - cbn [fst] in Hr. rewrite Hr. exact IH.
Qed.
Lemma trim_encoded : forall a m b, Forall (fun r => valid_rune r = true) (a ++ m ++ b) -> Forall (fun r => is_space r = true) (a ++ b) ->
  (forall r m', m = r :: m' -> is_space r = false) -> (forall r m', m = m' ++ [r] -> is_space r = false) ->
  trim_space (encode (a ++ m ++ b)) = encode m.
Proof.
  intros a m b Hv Hs Hf Hl. unfold trim_space. rewrite chunks_encode by exact Hv.
  apply Forall_app in Hs as [Ha Hb]. rewrite !map_app.
  assert (M : forall l, Forall (fun r => is_space r = true) l -> Forall (fun c : N * bytes => is_space (fst c) = true) (map (fun r => (r, encode_rune r)) l)).
  { intros l H. induction H; constructor; assumption. }
  assert (C : List.concat (map snd (map (fun r => (r, encode_rune r)) m)) = encode m).
  { unfold encode. rewrite map_map, <- flat_map_concat_map. reflexivity. }
  set (f := fun r => (r, encode_rune r)) in *. destruct m as [|r m].
  - cbn [map app]. rewrite <- map_app, <- (app_nil_r (map f (a ++ b))), drop_app; [reflexivity|apply M, Forall_app; split; assumption|exact I].
  - rewrite drop_app; [|apply M; exact Ha|exact (Hf r m eq_refl)]. rewrite rev_app_distr, drop_app; [|apply Forall_rev, M; exact Hb|].
    + rewrite rev_involutive. exact C.
    + destruct (@exists_last _ (r :: m) ltac:(discriminate)) as (m' & x & E). rewrite E, map_app, rev_app_distr. exact (Hl x m' E).
Qed.
(** Splitting *)
Lemma split_iff : forall c s l, split_byte c s = l <-> l <> [] /\ str_join [c] l = s /\ Forall (fun w => ~ In c w) l.
Proof.
  intros c s l. split.
  - intros <-. split; [apply split_byte_nonempty|]. split; [apply split_byte_join|]. apply Forall_forall. intros w. apply split_byte_nosep.
  - intros (Hn & <- & Hf). revert Hn. induction Hf as [|w l Hw Hf IH]; intro Hn; [destruct (Hn eq_refl)|]. destruct l as [|x l]; [apply split_byte_nosep_id; exact Hw|].
    change (str_join [c] (w :: x :: l)) with (w ++ c :: str_join [c] (x :: l)). rewrite split_byte_app by exact Hw. f_equal. apply IH. discriminate.
Qed.
Lemma number_encoded : forall (F : Num) (parse_float : bytes -> option F),
  number parse_float [] = Some zero /\
  forall a m b, a ++ m ++ b <> [] -> Forall (fun r => valid_rune r = true) (a ++ m ++ b) -> Forall white_space (a ++ b) ->
  (forall r m', m = r :: m' -> ~ white_space r) -> (forall r m', m = m' ++ [r] -> ~ white_space r) ->
  number parse_float (encode (a ++ m ++ b)) = parse_float (encode m).
Proof.
  intros F parse_float. split; [reflexivity|]. intros a m b Hn Hv Hs Hf Hl. assert (Hs' : Forall (fun r => is_space r = true) (a ++ b)) by (eapply Forall_impl; [|exact Hs]; intros r; apply white_iff). unfold number, float_value. rewrite (trim_encoded a m b Hv Hs' (fun r m' E => proj2 (white_not r) (Hf r m' E)) (fun r m' E => proj2 (white_not r) (Hl r m' E))).
  destruct (encode_nonnil _ Hn) as (c & t & ->). reflexivity.
Qed.
