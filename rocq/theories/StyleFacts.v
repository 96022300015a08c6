(** Proofs about style decoding. *)
From Coq Require Import Permutation.
From Verif Require Import GoStr GoStrFacts Utf8 Scan Style StyleSpec.

Definition prop_path (p : prop) : list nat :=
  match p with
  | font_family => [0;0] | font_point_size => [0;1] | font_style => [0;2] | font_weight => [0;3] | font_decoration => [0;4]
  | border => [1;0] | padding => [1;1] | margin => [1;2]
  | width => [2;0] | height => [2;1] | line_spacing => [2;2] | offset_x => [2;3] | offset_y => [2;4]
  | column_width => [3;0] | h_align => [4;0] | v_align => [4;1]
  | color => [5;0] | text_color => [5;1] | background_color => [5;2] | line_width => [6;0]
  end.
Definition all_props : list prop :=
  [font_family; font_point_size; font_style; font_weight; font_decoration; border; padding; margin;
   width; height; line_spacing; offset_x; offset_y; column_width; h_align; v_align; color; text_color;
   background_color; line_width].
Lemma all_props_in p : In p all_props.
Proof. destruct p; simpl; tauto. Qed.
Lemma prop_eq_dec (p q : prop) : {p = q} + {p <> q}.
Proof. decide equality. Defined.
Lemma prop_name_inj p q : prop_name p = prop_name q -> p = q.
Proof. destruct p, q; intros H; try reflexivity; discriminate H. Qed.
Lemma prop_path_inj p q : prop_path p = prop_path q -> p = q.
Proof. destruct p, q; intros H; try reflexivity; discriminate H. Qed.
Lemma prop_of_name k : {p | k = prop_name p} + {forall p, k <> prop_name p}.
Proof.
  destruct (find (fun p => beqb k (prop_name p)) all_props) as [p|] eqn:E.
  - left. exists p. apply find_some in E as [_ E]. destruct (beqb_spec k (prop_name p)); [assumption|discriminate].
  - right. intros p ->. pose proof (find_none _ _ E p (all_props_in p)) as Hp. cbv beta in Hp.
    rewrite beqb_refl in Hp. discriminate.
Qed.
Lemma prop_name_nonempty p : prop_name p <> [].
Proof. destruct p; discriminate. Qed.

Section S.
Variable F : Type.
Variables parse_float convert_float : bytes -> option F.
Notation value := (prop_value parse_float convert_float).
Notation make_mutate := (make_mutate F parse_float convert_float).
Notation build_mutator := (build_mutator F parse_float convert_float).
Notation decode_mutator := (decode_mutator F parse_float convert_float).

Lemma make_mutate_known p v :
  make_mutate styles_type (prop_name p) v [] =
  match value p v with Some x => Found (prop_path p) x | None => Error end.
Proof.
  destruct p; cbn; try reflexivity;
    unfold unmarshal_border, unmarshal_quad;
    repeat match goal with |- context [match ?x with _ => _ end] =>
      match x with scan4 _ _ => destruct x as [[[[? ?] ?] ?]|] | parse_float _ => destruct x | unmarshal_rgb _ => destruct x end end;
    reflexivity.
Qed.
Lemma make_mutate_empty v : make_mutate styles_type [] v [] = Error.
Proof. reflexivity. Qed.

Lemma make_mutate_unknown k v : k <> [] -> (forall p, k <> prop_name p) -> make_mutate styles_type k v [] = NotFound.
Proof.
  intros Hne Hk.
  assert (H : forall p, beqb (prop_name p) k = false).
  { intros p. destruct (beqb_spec (prop_name p) k) as [E|]; [|reflexivity]. exfalso. apply (Hk p). congruence. }
  assert (H0 : beqb [] k = false) by (destruct k; [congruence|reflexivity]).
  cbn -[beqb list_ascii_of_string].
  pose proof (H font_family) as E1. pose proof (H font_point_size) as E2. pose proof (H font_style) as E3.
  pose proof (H font_weight) as E4. pose proof (H font_decoration) as E5. pose proof (H border) as E6.
  pose proof (H padding) as E7. pose proof (H margin) as E8. pose proof (H width) as E9. pose proof (H height) as E10.
  pose proof (H line_spacing) as E11. pose proof (H offset_x) as E12. pose proof (H offset_y) as E13.
  pose proof (H column_width) as E14. pose proof (H h_align) as E15. pose proof (H v_align) as E16.
  pose proof (H color) as E17. pose proof (H text_color) as E18. pose proof (H background_color) as E19.
  pose proof (H line_width) as E20. cbn [prop_name] in *.
  repeat first [rewrite H0 | rewrite E1 | rewrite E2 | rewrite E3 | rewrite E4 | rewrite E5 | rewrite E6 | rewrite E7
    | rewrite E8 | rewrite E9 | rewrite E10 | rewrite E11 | rewrite E12 | rewrite E13 | rewrite E14 | rewrite E15
    | rewrite E16 | rewrite E17 | rewrite E18 | rewrite E19 | rewrite E20].
  reflexivity.
Qed.

(** Setting one property. *)
Lemma set_prop p v x s : value p v = Some x ->
  exists s', set_path (prop_path p) x (styles_val s) = Some (styles_val s') /\
    prop_get p s' = x /\ forall q, q <> p -> prop_get q s' = prop_get q s.
Proof.
  destruct s as [[fa ps fs fw fd] [bo pa ma] [w h ls ox oy] cw [ha va] [fg tx bg] lw].
  intros Hx; destruct p; cbn in Hx;
    repeat match type of Hx with
    | context [scan4 ?a ?b] => destruct (scan4 a b) as [[[[q1 q2] q3] q4]|]; [|discriminate Hx]; cbn in Hx
    | context [parse_float ?a] => destruct (parse_float a) as [f|]; [|discriminate Hx]; cbn in Hx
    | context [unmarshal_rgb ?a] => destruct (unmarshal_rgb a) as [c|]; [|discriminate Hx]; cbn in Hx
    end; injection Hx as <-.
  1: exists (mkStyles (mkFont v ps fs fw fd) (mkBox bo pa ma) (mkDim w h ls ox oy) cw (mkAlign ha va) (mkColor fg tx bg) lw).
  2: exists (mkStyles (mkFont fa f fs fw fd) (mkBox bo pa ma) (mkDim w h ls ox oy) cw (mkAlign ha va) (mkColor fg tx bg) lw).
  3: exists (mkStyles (mkFont fa ps v fw fd) (mkBox bo pa ma) (mkDim w h ls ox oy) cw (mkAlign ha va) (mkColor fg tx bg) lw).
  4: exists (mkStyles (mkFont fa ps fs v fd) (mkBox bo pa ma) (mkDim w h ls ox oy) cw (mkAlign ha va) (mkColor fg tx bg) lw).
  5: exists (mkStyles (mkFont fa ps fs fw v) (mkBox bo pa ma) (mkDim w h ls ox oy) cw (mkAlign ha va) (mkColor fg tx bg) lw).
  6: exists (mkStyles (mkFont fa ps fs fw fd) (mkBox (mkQuad q1 q2 q3 q4) pa ma) (mkDim w h ls ox oy) cw (mkAlign ha va) (mkColor fg tx bg) lw).
  7: exists (mkStyles (mkFont fa ps fs fw fd) (mkBox bo (mkQuad q1 q2 q3 q4) ma) (mkDim w h ls ox oy) cw (mkAlign ha va) (mkColor fg tx bg) lw).
  8: exists (mkStyles (mkFont fa ps fs fw fd) (mkBox bo pa (mkQuad q1 q2 q3 q4)) (mkDim w h ls ox oy) cw (mkAlign ha va) (mkColor fg tx bg) lw).
  9: exists (mkStyles (mkFont fa ps fs fw fd) (mkBox bo pa ma) (mkDim f h ls ox oy) cw (mkAlign ha va) (mkColor fg tx bg) lw).
  10: exists (mkStyles (mkFont fa ps fs fw fd) (mkBox bo pa ma) (mkDim w f ls ox oy) cw (mkAlign ha va) (mkColor fg tx bg) lw).
  11: exists (mkStyles (mkFont fa ps fs fw fd) (mkBox bo pa ma) (mkDim w h f ox oy) cw (mkAlign ha va) (mkColor fg tx bg) lw).
  12: exists (mkStyles (mkFont fa ps fs fw fd) (mkBox bo pa ma) (mkDim w h ls f oy) cw (mkAlign ha va) (mkColor fg tx bg) lw).
  13: exists (mkStyles (mkFont fa ps fs fw fd) (mkBox bo pa ma) (mkDim w h ls ox f) cw (mkAlign ha va) (mkColor fg tx bg) lw).
  14: exists (mkStyles (mkFont fa ps fs fw fd) (mkBox bo pa ma) (mkDim w h ls ox oy) f (mkAlign ha va) (mkColor fg tx bg) lw).
  15: exists (mkStyles (mkFont fa ps fs fw fd) (mkBox bo pa ma) (mkDim w h ls ox oy) cw (mkAlign v va) (mkColor fg tx bg) lw).
  16: exists (mkStyles (mkFont fa ps fs fw fd) (mkBox bo pa ma) (mkDim w h ls ox oy) cw (mkAlign ha v) (mkColor fg tx bg) lw).
  17: exists (mkStyles (mkFont fa ps fs fw fd) (mkBox bo pa ma) (mkDim w h ls ox oy) cw (mkAlign ha va) (mkColor c tx bg) lw).
  18: exists (mkStyles (mkFont fa ps fs fw fd) (mkBox bo pa ma) (mkDim w h ls ox oy) cw (mkAlign ha va) (mkColor fg c bg) lw).
  19: exists (mkStyles (mkFont fa ps fs fw fd) (mkBox bo pa ma) (mkDim w h ls ox oy) cw (mkAlign ha va) (mkColor fg tx c) lw).
  20: exists (mkStyles (mkFont fa ps fs fw fd) (mkBox bo pa ma) (mkDim w h ls ox oy) cw (mkAlign ha va) (mkColor fg tx bg) f).
  all: split; [reflexivity|]; split; [reflexivity|].
  all: intros q Hq; destruct q; solve [reflexivity | congruence].
Qed.

Lemma val_styles_val (s : Styles F) : val_styles (styles_val s) = Some s.
Proof. destruct s as [[] [[] [] []] [] cw [] [[] [] []] lw]. reflexivity. Qed.

(** The properties determine the styles. *)
Lemma props_ext (s s' : Styles F) : (forall p, prop_get p s = prop_get p s') -> s = s'.
Proof.
  intros H. destruct s as [[] [[] [] []] [] cw [] [[] [] []] lw].
  destruct s' as [[] [[] [] []] [] cw' [] [[] [] []] lw'].
  pose proof (H font_family); pose proof (H font_point_size); pose proof (H font_style); pose proof (H font_weight);
  pose proof (H font_decoration); pose proof (H border); pose proof (H padding); pose proof (H margin);
  pose proof (H width); pose proof (H height); pose proof (H line_spacing); pose proof (H offset_x);
  pose proof (H offset_y); pose proof (H column_width); pose proof (H h_align); pose proof (H v_align);
  pose proof (H color); pose proof (H text_color); pose proof (H background_color); pose proof (H line_width).
  clear H. cbn in *.
  repeat match goal with H : VStr _ = VStr _ |- _ => injection H as ? | H : VFloat _ = VFloat _ |- _ => injection H as ?
    | H : quad_val _ _ = quad_val _ _ |- _ => injection H as ? ? ? ?
    | H : rgb_val _ = rgb_val _ |- _ => injection H as ? ? ? end.
  congruence.
Qed.

(** ** Mutators whose assignments are property values. *)
Definition good (m : mutator F) : Prop :=
  Forall (fun a => exists p v, value p v = Some (snd a) /\ fst a = prop_path p) m.

(** Last assignment to [p]. *)
Fixpoint mut_value (m : mutator F) (p : prop) : option (gval F) :=
  match m with
  | [] => None
  | (path, x) :: m' =>
      match mut_value m' p with
      | Some y => Some y
      | None => if list_eq_dec Nat.eq_dec path (prop_path p) then Some x else None
      end
  end.

Lemma mutate_good m : good m -> forall s, exists s', mutate m s = Some s' /\
  forall p, prop_get p s' = match mut_value m p with Some x => x | None => prop_get p s end.
Proof.
  induction 1 as [|[path x] m (p & v & Hv & Hp) _ IH]; intros s; cbn [mutate mut_value].
  - exists s. split; [reflexivity|]. reflexivity.
  - cbn in Hv, Hp. subst path.
    destruct (set_prop p v x s Hv) as (s1 & -> & Hg & Hf). rewrite val_styles_val.
    destruct (IH s1) as (s2 & -> & H2). exists s2. split; [reflexivity|].
    intros q. rewrite H2. destruct (mut_value m q) as [y|]; [reflexivity|].
    destruct (list_eq_dec Nat.eq_dec (prop_path p) (prop_path q)) as [E|E].
    + apply prop_path_inj in E. subst q. exact Hg.
    + apply Hf. intros ->. apply E. reflexivity.
Qed.

(** ** Building a mutator from a map *)
Definition bad_binding (kv : bytes * bytes) : Prop :=
  fst kv = [] \/ exists p, fst kv = prop_name p /\ value p (snd kv) = None.

Lemma make_cases k v :
  (bad_binding (k, v) /\ make_mutate styles_type k v [] = Error) \/
  (~ bad_binding (k, v) /\ exists p x, k = prop_name p /\ value p v = Some x /\ make_mutate styles_type k v [] = Found (prop_path p) x) \/
  (~ bad_binding (k, v) /\ (forall p, k <> prop_name p) /\ make_mutate styles_type k v [] = NotFound).
Proof.
  destruct (list_eq_dec ascii_dec k []) as [->|Hne].
  { left. split; [left; reflexivity|apply make_mutate_empty]. }
  destruct (prop_of_name k) as [[p ->]|Hk].
  - rewrite make_mutate_known. destruct (value p v) as [x|] eqn:E.
    + right; left. split; [|exists p, x; auto].
      intros [H|(q & Hq & Hn)]; [exact (prop_name_nonempty p H)|]. cbn in *. apply prop_name_inj in Hq. congruence.
    + left. split; [right; exists p; auto|reflexivity].
  - right; right. split; [|split; [exact Hk|apply make_mutate_unknown; assumption]].
    intros [H|(q & Hq & _)]; [exact (Hne H)|exact (Hk q Hq)].
Qed.

Lemma build_none l : build_mutator l = None <-> Exists bad_binding l.
Proof.
  induction l as [|[k v] l IH]; cbn [Style.build_mutator].
  - split; [discriminate|]. intros H; inversion H.
  - rewrite Exists_cons, <- IH. destruct (make_cases k v) as [[Hb ->]|[(Hb & p & x & _ & _ & ->)|(Hb & _ & ->)]].
    + tauto.
    + destruct (build_mutator l); [split; [discriminate|intros [H|H]; [contradiction|discriminate]]|tauto].
    + tauto.
Qed.

Lemma build_some l m : build_mutator l = Some m -> good m.
Proof.
  revert m; induction l as [|[k v] l IH]; intros m; cbn [Style.build_mutator].
  - intros [= <-]. constructor.
  - destruct (make_cases k v) as [[Hb ->]|[(Hb & p & x & _ & Hx & ->)|(Hb & _ & ->)]]; [discriminate| |apply IH].
    destruct (build_mutator l) as [m'|]; [|discriminate]. intros [= <-].
    constructor; [exists p, v; auto|apply IH; reflexivity].
Qed.

Definition keys {A} (l : list (bytes * A)) : list bytes := map fst l.

Lemma build_value l m : build_mutator l = Some m -> NoDup (keys l) -> forall p,
  mut_value m p = match map_get (prop_name p) l with Some v => value p v | None => None end.
Proof.
  revert m; induction l as [|[k v] l IH]; intros m; cbn [Style.build_mutator].
  - intros [= <-] _ p. reflexivity.
  - intros H Hnd p. cbn [keys map fst] in Hnd. inversion Hnd as [|? ? Hnin Hnd']; subst.
    cbn [map_get].
    assert (Hget : forall q, k = prop_name q -> map_get (prop_name q) l = None).
    { intros q ->. clear - Hnin. induction l as [|[k' v'] l IH]; [reflexivity|]. cbn in *.
      destruct (beqb_spec k' (prop_name q)) as [->|_]; [exfalso; apply Hnin; left; reflexivity|].
      apply IH. intros Hi; apply Hnin; right; exact Hi. }
    destruct (make_cases k v) as [[Hb E]|[(Hb & q & x & Hq & Hx & E)|(Hb & Hk & E)]]; rewrite E in H; [discriminate| |].
    + destruct (build_mutator l) as [m'|] eqn:El; [|discriminate]. injection H as <-.
      specialize (IH m' eq_refl Hnd'). cbn [mut_value]. rewrite IH.
      destruct (beqb_spec k (prop_name p)) as [Ek|Ek].
      * rewrite (Hget p Ek).
        assert (q = p) as -> by (apply prop_name_inj; congruence).
        destruct (list_eq_dec Nat.eq_dec (prop_path p) (prop_path p)); congruence.
      * destruct (map_get (prop_name p) l) as [w|].
        -- destruct (value p w) eqn:Ev; [reflexivity|].
           destruct (list_eq_dec Nat.eq_dec (prop_path q) (prop_path p)) as [Ep|]; [|reflexivity].
           apply prop_path_inj in Ep. congruence.
        -- destruct (list_eq_dec Nat.eq_dec (prop_path q) (prop_path p)) as [Ep|]; [|reflexivity].
           apply prop_path_inj in Ep. congruence.
    + rewrite (IH m H Hnd'). destruct (beqb_spec k (prop_name p)) as [Ek|Ek]; [|reflexivity].
      exfalso. exact (Hk p Ek).
Qed.

(** ** Maps *)
Lemma map_get_in {A} k (l : list (bytes * A)) v : NoDup (keys l) -> (map_get k l = Some v <-> In (k, v) l).
Proof.
  induction l as [|[k' v'] l IH]; intros Hnd; cbn [map_get]; [split; [discriminate|intros []]|].
  cbn in Hnd. inversion Hnd as [|? ? Hnin Hnd']; subst. specialize (IH Hnd').
  destruct (beqb_spec k' k) as [->|Hk].
  - split; [intros [= ->]; left; reflexivity|]. intros [[= ->]|Hin]; [reflexivity|].
    exfalso. apply Hnin. apply in_map_iff. exists (k, v). auto.
  - rewrite IH. split; [intros H; right; exact H|]. intros [[= ]|H]; [congruence|exact H].
Qed.
Lemma map_get_perm {A} k (l l' : list (bytes * A)) : Permutation l l' -> NoDup (keys l) -> map_get k l = map_get k l'.
Proof.
  intros Hp Hnd.
  assert (Hnd' : NoDup (keys l')) by (eapply Permutation_NoDup; [apply Permutation_map, Hp|exact Hnd]).
  destruct (map_get k l) as [v|] eqn:E.
  - symmetry. apply map_get_in; [exact Hnd'|]. eapply Permutation_in; [exact Hp|]. apply map_get_in; assumption.
  - destruct (map_get k l') as [v|] eqn:E'; [|reflexivity].
    apply map_get_in in E'; [|exact Hnd']. apply Permutation_sym in Hp. apply (Permutation_in _ Hp) in E'.
    apply map_get_in in E'; [congruence|exact Hnd].
Qed.
Lemma map_set_keys {A} k (v : A) m : keys (map_set k v m) = if in_dec (list_eq_dec ascii_dec) k (keys m) then keys m else keys m ++ [k].
Proof.
  induction m as [|[k' v'] m IH]; [reflexivity|]. cbn [map_set].
  destruct (beqb_spec k' k) as [->|Hk].
  - destruct (in_dec (list_eq_dec ascii_dec) k (keys ((k, v') :: m))) as [_|Hn]; [reflexivity|]. exfalso; apply Hn; left; reflexivity.
  - unfold keys in *. cbn [map fst]. rewrite IH.
    destruct (in_dec (list_eq_dec ascii_dec) k (map fst m)) as [Hi|Hi];
      destruct (in_dec (list_eq_dec ascii_dec) k (k' :: map fst m)) as [Hj|Hj]; try reflexivity.
    + exfalso. apply Hj. right. exact Hi.
    + exfalso. destruct Hj as [Hj|Hj]; [exact (Hk Hj)|exact (Hi Hj)].
Qed.
Lemma NoDup_snoc {A} (l : list A) a : NoDup l -> ~ In a l -> NoDup (l ++ [a]).
Proof.
  intros H Hn. apply (Permutation_NoDup (l := a :: l)); [apply Permutation_cons_append|].
  constructor; assumption.
Qed.
Lemma map_set_nodup {A} k (v : A) m : NoDup (keys m) -> NoDup (keys (map_set k v m)).
Proof.
  intros H. rewrite map_set_keys. destruct (in_dec (list_eq_dec ascii_dec) k (keys m)) as [Hi|Hi]; [exact H|].
  apply NoDup_snoc; assumption.
Qed.
Lemma map_get_set {A} k (v : A) m k' : map_get k' (map_set k v m) = if beqb k k' then Some v else map_get k' m.
Proof.
  induction m as [|[k1 v1] m IH]; cbn [map_set map_get]; [reflexivity|].
  destruct (beqb_spec k1 k) as [->|Hk]; cbn [map_get].
  - destruct (beqb k k'); reflexivity.
  - rewrite IH. destruct (beqb_spec k1 k') as [->|]; [|reflexivity].
    destruct (beqb_spec k k') as [->|]; [congruence|reflexivity].
Qed.

(** ** Declarations *)
Lemma trim_left_app_ws p s : Forall (fun c => is_ws c = true) p -> trim_left is_ws (p ++ s) = trim_left is_ws s.
Proof. induction 1 as [|c p Hc _ IH]; [reflexivity|]. cbn. rewrite Hc. exact IH. Qed.
Lemma trim_right_app_ws q s : Forall (fun c => is_ws c = true) q -> trim_right is_ws (s ++ q) = trim_right is_ws s.
Proof.
  intros H. unfold trim_right. rewrite rev_app_distr, trim_left_app_ws; [reflexivity|]. apply Forall_rev, H.
Qed.
Lemma trim_left_right s : trim_left is_ws (trim_right is_ws s) = trim_right is_ws (trim_left is_ws s).
Proof.
  induction s as [|c s IH]; [reflexivity|]. cbn [trim_left].
  destruct (is_ws c) eqn:Hc.
  - rewrite <- IH. unfold trim_right. cbn [rev].
    assert (H : forall t, (exists t', trim_left is_ws (t ++ [c]) = t' ++ [c] /\ trim_left is_ws t = t' /\ t' <> []) \/
                          (trim_left is_ws (t ++ [c]) = [] /\ trim_left is_ws t = [])).
    { induction t as [|x t IHt]; cbn [app trim_left]; [rewrite Hc; right; auto|].
      destruct (is_ws x) eqn:Hx; [exact IHt|]. left. exists (x :: t). repeat split. discriminate. }
    destruct (H (rev s)) as [(t' & -> & -> & _)|(-> & ->)]; [|reflexivity].
    rewrite rev_app_distr. cbn [rev app trim_left]. rewrite Hc. reflexivity.
  - assert (H : exists t, trim_right is_ws (c :: s) = c :: t).
    { unfold trim_right. cbn [rev].
      assert (G : forall t, exists t', trim_left is_ws (t ++ [c]) = t' ++ [c]).
      { induction t as [|x t IHt]; cbn [app trim_left]; [rewrite Hc; exists []; reflexivity|].
        destruct (is_ws x); [exact IHt|]. exists (x :: t). reflexivity. }
      destruct (G (rev s)) as [t' ->]. rewrite rev_app_distr. exists (rev t'). reflexivity. }
    destruct H as [t ->]. cbn. rewrite Hc. reflexivity.
Qed.
Lemma trim_app_ws p q s : Forall (fun c => is_ws c = true) p -> Forall (fun c => is_ws c = true) q ->
  trim is_ws (p ++ s ++ q) = trim is_ws s.
Proof.
  intros Hp Hq. unfold trim. rewrite trim_left_app_ws by exact Hp.
  rewrite <- !trim_left_right, trim_right_app_ws by exact Hq. reflexivity.
Qed.

Lemma trim_nil d : trim is_ws d = [] <-> blank_item d.
Proof.
  unfold blank_item. split; intros H.
  - destruct (trim_split is_ws d) as (p & q & Hd & Hp & Hq). rewrite H in Hd. rewrite Hd.
    apply Forall_app. split; [exact Hp|exact Hq].
  - rewrite <- (app_nil_r d). change (d ++ []) with (d ++ [] ++ []). rewrite trim_app_ws; [reflexivity|exact H|constructor].
Qed.

Lemma colon_not_ws : is_ws colon = false.
Proof. reflexivity. Qed.
Lemma ws_no_colon l : Forall (fun c => is_ws c = true) l -> ~ In colon l.
Proof. intros H Hin. rewrite Forall_forall in H. specialize (H _ Hin). discriminate. Qed.

Lemma split2 s a b : split_byte colon s = [a; b] <-> s = a ++ colon :: b /\ ~ In colon a /\ ~ In colon b.
Proof.
  split.
  - intros H. pose proof (split_byte_nosep colon s) as Hn. rewrite H in Hn.
    pose proof (split_byte_join colon s) as Hj. rewrite H in Hj. cbn in Hj.
    split; [symmetry; exact Hj|]. split; apply Hn; [left|right; left]; reflexivity.
  - intros (-> & Ha & Hb). change (a ++ colon :: b) with (str_join [colon] [a; b]).
    apply split_byte_of_join; [discriminate|]. repeat constructor; assumption.
Qed.

Lemma declares_split d k v : (exists a b, split_byte colon (trim is_ws d) = [a; b] /\ k = trim is_ws a /\ v = trim is_ws b) <-> declares d k v.
Proof using. clear convert_float parse_float F.
  destruct (trim_split is_ws d) as (p & q & Hd & Hp & Hq). split.
  - intros (a & b & Hs & -> & ->). apply split2 in Hs as (Ht & Ha & Hb).
    exists (p ++ a), (b ++ q). rewrite Hd, Ht. rewrite <- !app_assoc. split; [reflexivity|].
    split; [rewrite in_app_iff; pose proof (ws_no_colon p Hp); tauto|].
    split; [rewrite in_app_iff; pose proof (ws_no_colon q Hq); tauto|].
    split.
    + rewrite <- (trim_app_ws p [] a) by (assumption || constructor). rewrite app_nil_r. reflexivity.
    + rewrite <- (trim_app_ws [] q b) by (assumption || constructor). reflexivity.
  - intros (a & b & Hab & Ha & Hb & -> & ->). change ":"%char with colon in *.
    (* p is a prefix of a, q a suffix of b *)
    assert (Hpa : exists a', a = p ++ a').
    { assert (E : p ++ (trim is_ws d ++ q) = a ++ colon :: b) by congruence.
      clear - E Hp. revert a E. induction Hp as [|c p Hc _ IH]; intros a E; [exists a; reflexivity|].
      destruct a as [|x a]; cbn in E; injection E as Ex E.
      - subst c. discriminate.
      - subst x. destruct (IH a E) as [a' ->]. exists a'. reflexivity. }
    destruct Hpa as [a' ->].
    assert (E : trim is_ws d ++ q = a' ++ colon :: b).
    { apply (app_inv_head p). rewrite <- Hd. rewrite Hab, <- app_assoc. reflexivity. }
    assert (Hbq : exists b', b = b' ++ q).
    { apply (f_equal (@rev _)) in E. rewrite !rev_app_distr in E. cbn [rev] in E. rewrite <- app_assoc in E. cbn in E.
      assert (Hq' : Forall (fun c => is_ws c = true) (rev q)) by (apply Forall_rev, Hq).
      assert (G : forall l r x y, Forall (fun c => is_ws c = true) l -> l ++ x = r ++ colon :: y -> exists r', r = l ++ r').
      { intros l r x y Hl. revert r. induction Hl as [|c l Hc _ IH]; intros r G; [exists r; reflexivity|].
        destruct r as [|z r]; cbn in G; injection G as Gz G; [subst c; discriminate|].
        subst z. destruct (IH r G) as [r' ->]. exists r'. reflexivity. }
      destruct (G _ _ _ _ Hq' E) as [r' Hr]. exists (rev r').
      rewrite <- (rev_involutive b), Hr, rev_app_distr, rev_involutive. reflexivity. }
    destruct Hbq as [b' ->].
    exists a', b'. split.
    + apply split2. split; [|split].
      * apply (app_inv_tail q). rewrite E, <- app_assoc. reflexivity.
      * intros H. apply Ha, in_or_app; right; exact H.
      * intros H. apply Hb, in_or_app; left; exact H.
    + split.
      * rewrite <- (app_nil_r (p ++ a')), <- app_assoc. apply trim_app_ws; [exact Hp|constructor].
      * change (b' ++ q) with ([] ++ b' ++ q). apply trim_app_ws; [constructor|exact Hq].
Qed.

Lemma declares_fun d k v k' v' : declares d k v -> declares d k' v' -> k = k' /\ v = v'.
Proof.
  intros H1 H2. apply declares_split in H1 as (a & b & Hs & -> & ->).
  apply declares_split in H2 as (a' & b' & Hs' & -> & ->). rewrite Hs in Hs'. injection Hs' as -> ->. auto.
Qed.
Lemma declares_not_blank d k v : declares d k v -> ~ blank_item d.
Proof.
  intros (a & b & -> & _) H. unfold blank_item in H. rewrite Forall_forall in H.
  specialize (H colon ltac:(apply in_or_app; right; left; reflexivity)). discriminate.
Qed.

Lemma raw_step d :
  (blank_item d /\ forall m l, parse_raw_go m (d :: l) = parse_raw_go m l) \/
  (exists k v, declares d k v /\ forall m l, parse_raw_go m (d :: l) = parse_raw_go (map_set k v m) l) \/
  (~ blank_item d /\ (forall k v, ~ declares d k v) /\ forall m l, parse_raw_go m (d :: l) = None).
Proof.
  destruct (trim is_ws d) as [|c t] eqn:E.
  - left. split; [apply trim_nil, E|]. intros m l. cbn [parse_raw_go]. rewrite E. reflexivity.
  - destruct (split_byte colon (trim is_ws d)) as [|a [|b [|x y]]] eqn:Es.
    + right; right. split; [rewrite <- trim_nil; congruence|]. split; [|intros; cbn [parse_raw_go]; rewrite E, <- E, Es; reflexivity].
      intros k v H. apply declares_split in H as (a & b & H & _). congruence.
    + right; right. split; [rewrite <- trim_nil; congruence|]. split; [|intros; cbn [parse_raw_go]; rewrite E, <- E, Es; reflexivity].
      intros k v H. apply declares_split in H as (a' & b & H & _). congruence.
    + right; left. exists (trim is_ws a), (trim is_ws b). split; [apply declares_split; exists a, b; auto|].
      intros. cbn [parse_raw_go]. rewrite E, <- E, Es. reflexivity.
    + right; right. split; [rewrite <- trim_nil; congruence|]. split; [|intros; cbn [parse_raw_go]; rewrite E, <- E, Es; reflexivity].
      intros k v H. apply declares_split in H as (a' & b' & H & _). congruence.
Qed.

Definition malformed (d : bytes) : Prop := ~ blank_item d /\ forall k v, ~ declares d k v.

Lemma raw_none l : forall m, parse_raw_go m l = None <-> Exists malformed l.
Proof.
  induction l as [|d l IH]; intros m.
  - cbn. split; [discriminate|]. intros H; inversion H.
  - rewrite Exists_cons. destruct (raw_step d) as [[Hb E]|[(k & v & Hd & E)|(Hb & Hn & E)]]; rewrite E.
    + rewrite IH. split; [tauto|]. intros [[H _]|H]; [contradiction|exact H].
    + rewrite IH. split; [tauto|]. intros [[_ H]|H]; [exfalso; exact (H k v Hd)|exact H].
    + split; [intros _; left; split; assumption|reflexivity].
Qed.

Lemma last_decl_cons d l k v :
  last_decl (d :: l) k v <-> last_decl l k v \/ (declares d k v /\ forall v', ~ last_decl l k v').
Proof.
  assert (Hex : forall l', (exists d' v', In d' l' /\ declares d' k v') -> exists v', last_decl l' k v').
  { induction l' as [|x l' IH] using rev_ind; [intros (? & ? & [] & _)|].
    intros (d' & v' & Hin & Hd).
    destruct (raw_step x) as [[Hb _]|[(k1 & v1 & Hd1 & _)|(_ & Hn & _)]].
    - apply in_app_or in Hin as [Hin|[<-|[]]]; [|exfalso; exact (declares_not_blank _ _ _ Hd Hb)].
      destruct (IH (ex_intro _ d' (ex_intro _ v' (conj Hin Hd)))) as (w & l1 & e & l2 & -> & He & Hno).
      exists w, l1, e, (l2 ++ [x]). rewrite <- app_assoc. split; [reflexivity|]. split; [exact He|].
      intros f w' Hf. apply in_app_or in Hf as [Hf|[<-|[]]]; [apply Hno, Hf|]. intros Hw. exact (declares_not_blank _ _ _ Hw Hb).
    - destruct (list_eq_dec ascii_dec k1 k) as [->|Hne].
      + exists v1, l', x, []. split; [reflexivity|]. split; [exact Hd1|]. intros ? ? [].
      + apply in_app_or in Hin as [Hin|[<-|[]]]; [|exfalso; apply Hne; exact (proj1 (declares_fun _ _ _ _ _ Hd1 Hd))].
        destruct (IH (ex_intro _ d' (ex_intro _ v' (conj Hin Hd)))) as (w & l1 & e & l2 & -> & He & Hno).
        exists w, l1, e, (l2 ++ [x]). rewrite <- app_assoc. split; [reflexivity|]. split; [exact He|].
        intros f w' Hf. apply in_app_or in Hf as [Hf|[<-|[]]]; [apply Hno, Hf|]. intros Hw. apply Hne. exact (proj1 (declares_fun _ _ _ _ _ Hd1 Hw)).
    - apply in_app_or in Hin as [Hin|[<-|[]]]; [|exfalso; exact (Hn _ _ Hd)].
      destruct (IH (ex_intro _ d' (ex_intro _ v' (conj Hin Hd)))) as (w & l1 & e & l2 & -> & He & Hno).
      exists w, l1, e, (l2 ++ [x]). rewrite <- app_assoc. split; [reflexivity|]. split; [exact He|].
      intros f w' Hf. apply in_app_or in Hf as [Hf|[<-|[]]]; [apply Hno, Hf|]. apply Hn. }
  split.
  - intros (l1 & e & l2 & H & He & Hno). destruct l1 as [|x l1]; cbn in H; injection H as -> ->.
    + right. split; [exact He|]. intros v' (l1 & e' & l2' & -> & He' & _).
      apply (Hno e' v'); [apply in_or_app; right; left; reflexivity|exact He'].
    + left. exists l1, e, l2. auto.
  - intros [(l1 & e & l2 & -> & He & Hno)|[Hd Hno]].
    + exists (d :: l1), e, l2. auto.
    + exists [], d, l. split; [reflexivity|]. split; [exact Hd|].
      intros d' v' Hin Hd'. destruct (Hex l (ex_intro _ d' (ex_intro _ v' (conj Hin Hd')))) as [w Hw].
      exact (Hno w Hw).
Qed.

Lemma last_decl_fun l k v v' : last_decl l k v -> last_decl l k v' -> v = v'.
Proof.
  revert v v'; induction l as [|d l IH]; intros v v' H H'.
  - destruct H as (l1 & ? & ? & H & _). destruct l1; discriminate.
  - apply last_decl_cons in H. apply last_decl_cons in H'.
    destruct H as [H|[Hd Hn]], H' as [H'|[Hd' Hn']].
    + eapply IH; eassumption.
    + exfalso; exact (Hn' _ H).
    + exfalso; exact (Hn _ H').
    + exact (proj2 (declares_fun _ _ _ _ _ Hd Hd')).
Qed.

Lemma last_decl_dec l k : (exists v, last_decl l k v) \/ (forall v, ~ last_decl l k v).
Proof.
  induction l as [|d l IH].
  - right. intros v (l1 & ? & ? & H & _). destruct l1; discriminate.
  - destruct IH as [[v Hv]|Hn]; [left; exists v; apply last_decl_cons; left; exact Hv|].
    destruct (raw_step d) as [[Hb _]|[(k1 & v1 & Hd & _)|(_ & Hnd & _)]].
    + right. intros v H. apply last_decl_cons in H as [H|[H _]]; [exact (Hn _ H)|exact (declares_not_blank _ _ _ H Hb)].
    + destruct (list_eq_dec ascii_dec k1 k) as [->|Hne].
      * left. exists v1. apply last_decl_cons. right. auto.
      * right. intros v H. apply last_decl_cons in H as [H|[H _]]; [exact (Hn _ H)|].
        apply Hne. exact (proj1 (declares_fun _ _ _ _ _ Hd H)).
    + right. intros v H. apply last_decl_cons in H as [H|[H _]]; [exact (Hn _ H)|exact (Hnd _ _ H)].
Qed.

Lemma raw_get l : forall m m', parse_raw_go m l = Some m' -> forall k v,
  map_get k m' = Some v <-> last_decl l k v \/ (map_get k m = Some v /\ forall v', ~ last_decl l k v').
Proof.
  induction l as [|d l IH]; intros m m' H k v.
  - cbn in H. injection H as <-. split.
    + intros H. right. split; [exact H|]. intros v' (l1 & ? & ? & H' & _). destruct l1; discriminate.
    + intros [(l1 & ? & ? & H' & _)|[H _]]; [destruct l1; discriminate|exact H].
  - destruct (raw_step d) as [[Hb E]|[(k1 & v1 & Hd & E)|(_ & _ & E)]]; rewrite E in H; [| |discriminate].
    + rewrite (IH _ _ H k v). rewrite last_decl_cons.
      assert (Hnd : forall w, ~ declares d k w) by (intros w Hw; exact (declares_not_blank _ _ _ Hw Hb)).
      assert (Hiff : (forall v', ~ last_decl (d :: l) k v') <-> (forall v', ~ last_decl l k v')).
      { split; intros Hn v' Hl; apply (Hn v'); [apply last_decl_cons; left; exact Hl|].
        apply last_decl_cons in Hl as [Hl|[Hw _]]; [exact Hl|exfalso; exact (Hnd _ Hw)]. }
      rewrite Hiff. split; [tauto|]. intros [[Hl|[Hw _]]|Hg]; [tauto|exfalso; exact (Hnd _ Hw)|tauto].
    + rewrite (IH _ _ H k v). rewrite map_get_set, last_decl_cons.
      destruct (beqb_spec k1 k) as [->|Hne].
      * split.
        -- intros [Hl|[[= ->] Hn]]; [tauto|]. left; right. split; [exact Hd|exact Hn].
        -- intros [[Hl|[Hw Hn]]|[_ Hn]]; [tauto| |].
           ++ right. split; [|exact Hn]. f_equal. exact (proj2 (declares_fun _ _ _ _ _ Hd Hw)).
           ++ exfalso. destruct (last_decl_dec l k) as [[w Hw]|Hw].
              ** apply (Hn w). apply last_decl_cons. left; exact Hw.
              ** apply (Hn v1). apply last_decl_cons. right; auto.
      * assert (Hnd : forall w, ~ declares d k w) by (intros w Hw; apply Hne; exact (proj1 (declares_fun _ _ _ _ _ Hd Hw))).
        assert (Hiff : (forall v', ~ last_decl (d :: l) k v') <-> (forall v', ~ last_decl l k v')).
        { split; intros Hn v' Hl; apply (Hn v'); [apply last_decl_cons; left; exact Hl|].
          apply last_decl_cons in Hl as [Hl|[Hw _]]; [exact Hl|exfalso; exact (Hnd _ Hw)]. }
        rewrite Hiff. split; [tauto|]. intros [[Hl|[Hw _]]|Hg]; [tauto|exfalso; exact (Hnd _ Hw)|tauto].
Qed.
Lemma raw_nodup l : forall m m', NoDup (keys m) -> parse_raw_go m l = Some m' -> NoDup (keys m').
Proof.
  induction l as [|d l IH]; intros m m' Hn H.
  - cbn in H. injection H as <-. exact Hn.
  - destruct (raw_step d) as [[Hb E]|[(k1 & v1 & Hd & E)|(_ & _ & E)]]; rewrite E in H; [eapply IH; eassumption| |discriminate].
    eapply IH; [|exact H]. apply map_set_nodup, Hn.
Qed.

Lemma parse_raw_get s m : parse_raw s = Some m -> NoDup (keys m) /\ forall k v, map_get k m = Some v <-> last_decl (items s) k v.
Proof.
  intros H. unfold parse_raw in H. split; [eapply raw_nodup; [|exact H]; constructor|].
  intros k v. rewrite (raw_get _ _ _ H k v). split; [intros [Hl|[Hd _]]; [exact Hl|discriminate]|tauto].
Qed.

Section Shuffle.
Variable shuffle : rawmap -> rawmap.
Hypothesis Hsh : forall l, Permutation (shuffle l) l.

Lemma decode_none s : decode_mutator shuffle s = None <->
  Exists malformed (items s) \/
  (exists v, last_decl (items s) [] v) \/
  (exists p v, last_decl (items s) (prop_name p) v /\ value p v = None).
Proof.
  unfold Style.decode_mutator. destruct (parse_raw s) as [m|] eqn:E.
  - assert (Hm : ~ Exists malformed (items s)).
    { intros H. apply (raw_none _ []) in H. unfold parse_raw, items, semicolon in *. congruence. }
    apply parse_raw_get in E as [Hnd Hget].
    rewrite build_none.
    assert (Hex : Exists bad_binding (shuffle m) <-> Exists bad_binding m).
    { rewrite !Exists_exists. split; intros (x & Hx & Hb); exists x; split; try exact Hb.
      - eapply Permutation_in; [apply Hsh|exact Hx].
      - eapply Permutation_in; [apply Permutation_sym, Hsh|exact Hx]. }
    rewrite Hex, Exists_exists. split.
    + intros ([k v] & Hin & Hb). right. apply map_get_in in Hin; [|exact Hnd]. apply Hget in Hin.
      destruct Hb as [Hb|(p & Hb & Hv)]; cbn in *; subst k; [left; exists v; exact Hin|right; exists p, v; auto].
    + intros [H|[(v & Hv)|(p & v & Hv & Hn)]]; [contradiction| |].
      * exists ([], v). split; [apply map_get_in; [exact Hnd|]; apply Hget, Hv|left; reflexivity].
      * exists (prop_name p, v). split; [apply map_get_in; [exact Hnd|]; apply Hget, Hv|right; exists p; auto].
  - split; [|reflexivity]. intros _. left. apply (raw_none _ []). exact E.
Qed.

Lemma decode_some s m : decode_mutator shuffle s = Some m ->
  good m /\ forall p x, mut_value m p = Some x <-> exists v, last_decl (items s) (prop_name p) v /\ value p v = Some x.
Proof.
  unfold Style.decode_mutator. intros H. destruct (parse_raw s) as [r|] eqn:E; [|discriminate].
  apply parse_raw_get in E as [Hnd Hget].
  split; [eapply build_some, H|]. intros p x.
  assert (Hnd' : NoDup (keys (shuffle r))).
  { eapply Permutation_NoDup; [|exact Hnd]. apply Permutation_map, Permutation_sym, Hsh. }
  rewrite (build_value _ _ H Hnd' p).
  rewrite (map_get_perm _ _ _ (Hsh r) Hnd'). split.
  - destruct (map_get (prop_name p) r) as [v|] eqn:Eg; [|discriminate]. intros Hv.
    exists v. split; [apply Hget, Eg|exact Hv].
  - intros (v & Hv & Hx). apply Hget in Hv. rewrite Hv. exact Hx.
Qed.

(** A declared property of a decodable text has a value. *)
Lemma decode_value s m p v : decode_mutator shuffle s = Some m -> last_decl (items s) (prop_name p) v ->
  exists x, value p v = Some x.
Proof.
  intros H Hv. destruct (value p v) as [x|] eqn:E; [exists x; reflexivity|].
  assert (Hn : decode_mutator shuffle s = None) by (apply decode_none; right; right; exists p, v; auto).
  congruence.
Qed.
End Shuffle.

Lemma decode_sets sh s m st : (forall l, Permutation (sh l) l) -> decode_mutator sh s = Some m ->
  exists st', mutate m st = Some st' /\ forall p,
    (forall v, last_decl (items s) (prop_name p) v -> value p v = Some (prop_get p st')) /\
    ((forall v, ~ last_decl (items s) (prop_name p) v) -> prop_get p st' = prop_get p st).
Proof.
  intros Hsh H. destruct (decode_some sh Hsh s m H) as [Hg Hv].
  destruct (mutate_good m Hg st) as (st' & Hm & Hst). exists st'. split; [exact Hm|].
  intros p. rewrite Hst. split.
  - intros v Hl. destruct (decode_value sh Hsh s m p v H Hl) as [x Hx].
    assert (E : mut_value m p = Some x) by (apply Hv; exists v; auto). rewrite E. exact Hx.
  - intros Hn. destruct (mut_value m p) as [x|] eqn:E; [|reflexivity].
    apply Hv in E as (v & Hl & _). exfalso. exact (Hn v Hl).
Qed.

Lemma decode_order s sh1 sh2 : (forall l, Permutation (sh1 l) l) -> (forall l, Permutation (sh2 l) l) ->
  match decode_mutator sh1 s, decode_mutator sh2 s with
  | Some m1, Some m2 => forall st, exists st', mutate m1 st = Some st' /\ mutate m2 st = Some st'
  | None, None => True
  | _, _ => False
  end.
Proof.
  intros H1 H2.
  destruct (decode_mutator sh1 s) as [m1|] eqn:E1; destruct (decode_mutator sh2 s) as [m2|] eqn:E2; [| | |exact I].
  - intros st. destruct (decode_sets sh1 s m1 st H1 E1) as (s1 & Hm1 & Hp1).
    destruct (decode_sets sh2 s m2 st H2 E2) as (s2 & Hm2 & Hp2).
    exists s1. split; [exact Hm1|]. rewrite Hm2. f_equal. apply props_ext. intros p.
    destruct (Hp1 p) as [A1 B1]. destruct (Hp2 p) as [A2 B2].
    destruct (last_decl_dec (items s) (prop_name p)) as [[v Hv]|Hn].
    + specialize (A1 v Hv). specialize (A2 v Hv). congruence.
    + rewrite (B1 Hn), (B2 Hn). reflexivity.
  - apply (decode_none sh2 H2) in E2. apply (decode_none sh1 H1) in E2. congruence.
  - apply (decode_none sh1 H1) in E1. apply (decode_none sh2 H2) in E1. congruence.
Qed.
End S.

(** ** The words of the specification *)
Lemma items_split s : str_join [";"%char] (items s) = s /\ items s <> [] /\ forall d, In d (items s) -> ~ In ";"%char d.
Proof. split; [apply split_byte_join|]. split; [apply split_byte_nonempty|]. intros d Hd. exact (split_byte_nosep _ _ _ Hd). Qed.
Lemma ws_blank c : is_ws c = true <-> blank_char c.
Proof.
  unfold blank_char. destruct c as [[] [] [] [] [] [] [] []]; vm_compute; split; intros H; try reflexivity; try discriminate H;
    repeat (destruct H as [H|H]; [discriminate H|]); try destruct H; tauto.
Qed.
Lemma trim_stripped s t : t = trim is_ws s <-> stripped s t.
Proof.
  assert (A : stripped s (trim is_ws s)).
  { split; [|split].
    - destruct (trim_split is_ws s) as (p & q & E & Hp & Hq). exists p, q. split; [exact E|]. split; eapply Forall_impl; [|exact Hp| |exact Hq]; intros c Hc; apply ws_blank; exact Hc.
    - intros c r E Hc. apply ws_blank in Hc. rewrite (trim_head _ _ _ _ E) in Hc. discriminate Hc.
    - intros c r E Hc. apply ws_blank in Hc. rewrite (trim_last _ _ _ _ E) in Hc. discriminate Hc. }
  split; [intros ->; exact A|]. intros ((a & b & E & Ha & Hb) & H1 & H2). rewrite E.
  assert (Ha' : Forall (fun c => is_ws c = true) a) by (eapply Forall_impl; [|exact Ha]; intros c Hc; apply ws_blank; exact Hc).
  assert (Hb' : Forall (fun c => is_ws c = true) b) by (eapply Forall_impl; [|exact Hb]; intros c Hc; apply ws_blank; exact Hc).
  rewrite trim_app_ws by assumption. symmetry. apply trim_id.
  - intros c r Ec. destruct (is_ws c) eqn:K; [|reflexivity]. exfalso. exact (H1 c r Ec (proj1 (ws_blank c) K)).
  - intros c r Ec. destruct (is_ws c) eqn:K; [|reflexivity]. exfalso. exact (H2 c r Ec (proj1 (ws_blank c) K)).
Qed.
