(** Descriptions dumped as JSON: the theorems. *)
From Coq Require Import ZArith Lia Permutation Floats.SpecFloat.
From Verif Require Import GoStr GoStrFacts Utf8 Utf8Facts Num Style Class Instr Load Describe DescribeSpec Dump DumpSpec DumpFacts DumpThms Json JsonSpec JsonFacts.
Local Open Scope nat_scope.

Section Thms.
Context {F : Num}.
Variables (fmt : F -> bytes) (finite : F -> bool) (mm : list (bytes * jval F) -> option bytes).
Hypothesis Literal : forall x, finite x = true -> number_literal (fmt x).
Local Notation jgo := (jgo F).
Arguments JGNil {F}. Arguments JGText {F}. Arguments JGNum {F}. Arguments JGMap {F}. Arguments JGNilSlice {F}. Arguments JGSlice {F}. Arguments JGStruct {F}.

Lemma jgo_ind' : forall P : jgo -> Prop, P JGNil -> (forall s, P (JGText s)) -> (forall x, P (JGNum x)) -> (forall l, P (JGMap l)) -> P JGNilSlice ->
  (forall l, Forall P l -> P (JGSlice l)) -> (forall l, Forall (fun kx => P (snd kx)) l -> P (JGStruct l)) -> forall v, P v.
Proof.
  intros P H1 H2 H3 H4 H5 H6 H7. fix IH 1. intros [|s|x|l| |l|l]; [exact H1|apply H2|apply H3|apply H4|exact H5| |].
  - apply H6. induction l; constructor; [apply IH|assumption].
  - apply H7. induction l as [|[k x] l IHl]; constructor; [apply IH|assumption].
Qed.
Fixpoint tree_of (v : jgo) : json :=
  match v with
  | JGNil | JGNilSlice | JGMap _ => JNull
  | JGText s => JText (repaired s)
  | JGNum x => JNumber (fmt x)
  | JGSlice l => JArray (map tree_of l)
  | JGStruct fs => JObject (map (fun kx => (repaired (fst kx), tree_of (snd kx))) fs)
  end.
Fixpoint no_maps (v : jgo) : bool :=
  match v with JGMap _ => false | JGSlice l => forallb no_maps l | JGStruct fs => forallb (fun kx => no_maps (snd kx)) fs | _ => true end.
Fixpoint good (v : jgo) : bool :=
  match v with JGNum x => finite x | JGSlice l => forallb good l | JGStruct fs => forallb (fun kx => good (snd kx)) fs | _ => true end.
Local Notation marshal := (marshal_json F fmt finite mm).
Lemma marshal_good : forall v, no_maps v = true -> good v = true -> forall d, exists out, marshal d v = Some out /\ lexes out (toks_of (tree_of v)).
Proof.
  apply (jgo_ind' (fun v => no_maps v = true -> good v = true -> forall d, exists out, marshal d v = Some out /\ lexes out (toks_of (tree_of v)))).
  - intros _ _ d. eexists. split; [reflexivity|apply null_lexes].
  - intros s _ _ d. eexists. split; [reflexivity|apply string_lexes].
  - intros x _ H d. cbn [good] in H. cbn [marshal_json]. rewrite H. eexists. split; [reflexivity|exact (number_lexes _ (Literal x H))].
  - intros l H. discriminate H.
  - intros _ _ d. eexists. split; [reflexivity|apply null_lexes].
  - intros l IH Hm Hg d. cbn [no_maps good] in Hm, Hg. cbn [marshal_json tree_of toks_of]. rewrite map_map.
    assert (K : exists parts, sequence (map (marshal (S d)) l) = Some parts /\ Forall2 lexes parts (map (fun v => toks_of (tree_of v)) l)).
    { induction IH as [|x l Hx IH IHl]; [exists []; split; [reflexivity|constructor]|]. cbn [forallb] in Hm, Hg. apply andb_true_iff in Hm as [M1 M2]. apply andb_true_iff in Hg as [G1 G2].
      destruct (Hx M1 G1 (S d)) as (out & E & L). destruct (IHl M2 G2) as (parts & Es & Ls). exists (out :: parts). cbn [map sequence]. rewrite E, Es. split; [reflexivity|constructor; assumption]. }
    destruct K as (parts & -> & L). eexists. split; [reflexivity|]. apply bracket_lexes; [left; reflexivity|left; reflexivity|exact L].
  - intros l IH Hm Hg d. cbn [no_maps good] in Hm, Hg. cbn [marshal_json tree_of toks_of]. rewrite map_map. cbn [fst snd].
    match goal with |- context [sequence ?m] => assert (K : exists parts, sequence m = Some parts /\ Forall2 lexes parts (map (fun kx => TText (repaired (fst kx)) :: TPunct ":"%char :: toks_of (tree_of (snd kx))) l)) end.
    { induction IH as [|[k x] l Hx IH IHl]; [exists []; split; [reflexivity|constructor]|]. cbn [forallb snd] in Hm, Hg, Hx. apply andb_true_iff in Hm as [M1 M2]. apply andb_true_iff in Hg as [G1 G2].
      destruct (Hx M1 G1 (S d)) as (out & E & L). destruct (IHl M2 G2) as (parts & Es & Ls). exists ((json_string k ++ $": " ++ out) :: parts). cbn [map sequence fst snd].
      rewrite E. cbn [option_map]. rewrite Es. split; [reflexivity|constructor; [|assumption]].
      intros rest Hd. rewrite <- !app_assoc, lex_string. change ($": " ++ out ++ rest) with (":"%char :: sp :: out ++ rest). cbn [jlex].
      change (outside ":"%char) with (Some (Out, [TPunct ":"%char])). change (outside sp) with (Some (Out, @nil jtok)). cbn iota beta. rewrite (L rest Hd), emit_map, !map_app_twice. reflexivity. }
    destruct K as (parts & -> & L). eexists. split; [reflexivity|]. apply bracket_lexes; [right; left; reflexivity|right; left; reflexivity|exact L].
Qed.
Lemma marshal_bad : forall v, no_maps v = true -> good v = false -> forall d, marshal d v = None.
Proof.
  assert (N : forall l : list (option bytes), In None l -> sequence l = None).
  { induction l as [|[x|] l IH]; intros H; [destruct H| |reflexivity]. destruct H as [H|H]; [discriminate H|]. cbn [sequence]. rewrite (IH H). reflexivity. }
  assert (X : forall A (f : A -> bool) l, forallb f l = false -> exists x, In x l /\ f x = false).
  { induction l as [|x l IH]; cbn; intros H; [discriminate H|]. destruct (f x) eqn:E; [|exists x; split; [left; reflexivity|exact E]]. destruct (IH H) as (y & Hy & E'). exists y. split; [right; exact Hy|exact E']. }
  apply (jgo_ind' (fun v => no_maps v = true -> good v = false -> forall d, marshal d v = None)); try (intros; discriminate).
  - intros x _ H d. cbn [good] in H. cbn [marshal_json]. rewrite H. reflexivity.
  - intros l IH Hm Hg d. cbn [no_maps good] in Hm, Hg. cbn [marshal_json]. destruct (X _ _ _ Hg) as (x & Hx & E). rewrite forallb_forall in Hm. rewrite Forall_forall in IH.
    rewrite N; [reflexivity|]. apply in_map_iff. exists x. split; [apply IH; auto|exact Hx].
  - intros l IH Hm Hg d. cbn [no_maps good] in Hm, Hg. cbn [marshal_json]. destruct (X _ _ _ Hg) as (x & Hx & E). rewrite forallb_forall in Hm. rewrite Forall_forall in IH.
    rewrite N; [reflexivity|]. apply in_map_iff. exists x. split; [|exact Hx]. rewrite (IH x Hx (Hm x Hx) E). reflexivity.
Qed.

(** ** Items *)
Lemma diff_ok : forall d : diff F, no_object d -> no_maps (diff_json F d) = true /\ good (diff_json F d) = forallb finite (diff_numbers d) /\ normal (tree_of (diff_json F d)) = diff_shown fmt d.
Proof.
  intros [p o m] [Ho Hm]. unfold diff_json, diff_shown, diff_numbers. cbn [d_path d_org d_mod] in *.
  destruct m; [| |contradiction]; destruct o as [[]|]; try contradiction; cbn; rewrite ?andb_true_r; repeat split.
Qed.
Lemma forallb_map : forall A B (f : B -> bool) (g : A -> B) l, forallb f (map g l) = forallb (fun x => f (g x)) l.
Proof. induction l as [|x l IH]; [reflexivity|]. cbn. rewrite IH. reflexivity. Qed.
Lemma all_items : forall A (f : A -> bool) (g : A -> list F) l, (forall x, In x l -> f x = forallb finite (g x)) -> forallb f l = forallb finite (flat_map g l).
Proof. intros A f g. induction l as [|x l IH]; intros H; [reflexivity|]. cbn [forallb flat_map]. rewrite forallb_app, (H x (or_introl eq_refl)), (IH (fun y Hy => H y (or_intror Hy))). reflexivity. Qed.
Definition shown_ok (it : item F) : Prop :=
  no_objects it -> no_maps (item_json F it) = true /\ good (item_json F it) = forallb finite (item_numbers it) /\ normal (tree_of (item_json F it)) = item_shown fmt it.
Definition slice_of (l : list jgo) : jgo := match l with [] => JGNilSlice | _ => JGSlice l end.
Lemma slice_ok : forall items, Forall shown_ok items -> Forall no_objects items -> let v := slice_of (map (item_json F) items) in
  no_maps v = true /\ good v = forallb finite (flat_map item_numbers items) /\ normal (tree_of v) = array (map (item_shown fmt) items).
Proof.
  intros items H1 H2. rewrite Forall_forall in H1, H2. destruct items as [|it items]; [repeat split|]. cbn zeta.
  change (slice_of (map (item_json F) (it :: items))) with (JGSlice (map (item_json F) (it :: items))).
  split; [|split].
  - cbn [no_maps]. apply forallb_forall. intros x Hx. apply in_map_iff in Hx as (y & <- & Hy). exact (proj1 (H1 y Hy (H2 y Hy))).
  - change (good (JGSlice (map (item_json F) (it :: items)))) with (forallb good (map (item_json F) (it :: items))).
    rewrite forallb_map. apply all_items. intros x Hx. exact (proj1 (proj2 (H1 x Hx (H2 x Hx)))).
  - change (JArray (map normal (map tree_of (map (item_json F) (it :: items)))) = JArray (map (item_shown fmt) (it :: items))). f_equal.
    rewrite !map_map. apply map_ext_in. intros x Hx. exact (proj2 (proj2 (H1 x Hx (H2 x Hx)))).
Qed.
Lemma diffs_ok : forall n (ds : list (diff F)), Forall no_object ds -> let v := match ds with [] => if unstyled n then JGNilSlice else JGSlice [] | _ => JGSlice (map (diff_json F) ds) end in
  no_maps v = true /\ good v = forallb finite (flat_map diff_numbers ds) /\ normal (tree_of v) = array (map (diff_shown fmt) ds).
Proof.
  intros n ds H. rewrite Forall_forall in H. destruct ds as [|d ds]; [cbn zeta; destruct (unstyled n); repeat split|]. cbn zeta. split; [|split].
  - cbn [no_maps]. apply forallb_forall. intros x Hx. apply in_map_iff in Hx as (y & <- & Hy). exact (proj1 (diff_ok y (H y Hy))).
  - change (good (JGSlice (map (diff_json F) (d :: ds)))) with (forallb good (map (diff_json F) (d :: ds))).
    rewrite forallb_map. apply all_items. intros x Hx. exact (proj1 (proj2 (diff_ok x (H x Hx)))).
  - change (JArray (map normal (map tree_of (map (diff_json F) (d :: ds)))) = JArray (map (diff_shown fmt) (d :: ds))). f_equal.
    rewrite !map_map. apply map_ext_in. intros x Hx. exact (proj2 (proj2 (diff_ok x (H x Hx)))).
Qed.
Lemma item_ok : forall it, shown_ok it.
Proof.
  apply item_rect'. intros n v ds items IH H. inversion H as [? ? ? ? Hd Hi]; subst. destruct (slice_ok items IH Hi) as (S1 & S2 & S3). destruct (diffs_ok n ds Hd) as (D1 & D2 & D3). cbn zeta in *.
  assert (E : item_json F (mkItem n v ds items) = JGStruct [($"Name", JGText n); ($"Value", value_json F v);
     ($"StyleDiffs", match ds with [] => if unstyled n then JGNilSlice else JGSlice [] | _ => JGSlice (map (diff_json F) ds) end); ($"Items", slice_of (map (item_json F) items))]) by (destruct items; reflexivity).
  rewrite E. set (a := match ds with [] => _ | _ => _ end) in *. set (b := slice_of (map (item_json F) items)) in *. clearbody a b. clear E.
  split; [|split].
  - cbn [no_maps forallb snd]. rewrite S1, D1. destruct v; reflexivity.
  - cbn [good forallb snd item_numbers]. rewrite S2, D2, !forallb_app, andb_true_r. destruct v; cbn; rewrite ?andb_true_r; reflexivity.
  - cbn [tree_of normal map fst snd item_shown]. rewrite S3, D3. destruct v; reflexivity.
Qed.
Definition whole (items : list (item F)) : jgo := JGStruct [($"Items", slice_of (map (item_json F) items))].
Lemma whole_ok : forall items, Forall no_objects items ->
  no_maps (whole items) = true /\ good (whole items) = forallb finite (numbers items) /\ normal (tree_of (whole items)) = description_shown fmt items.
Proof.
  intros items H. destruct (slice_ok items (proj2 (Forall_forall _ _) (fun it _ => item_ok it)) H) as (S1 & S2 & S3). cbn zeta in *. unfold whole.
  set (b := slice_of (map (item_json F) items)) in *. clearbody b. split; [|split].
  - cbn [no_maps forallb snd]. rewrite S1. reflexivity.
  - cbn [good forallb snd]. rewrite S2, andb_true_r. reflexivity.
  - cbn [tree_of normal map fst snd]. rewrite S3. reflexivity.
Qed.
Lemma dump_whole : forall items, dump_json F fmt finite mm items = match marshal 0 (whole items) with Some out => out | None => [] end.
Proof. intros [|it items]; reflexivity. Qed.
Theorem items_shown : forall items, Forall no_objects items -> Forall (fun x => finite x = true) (numbers items) ->
  option_map normal (read_json (dump_json F fmt finite mm items)) = Some (description_shown fmt items).
Proof.
  intros items H Hf. destruct (whole_ok items H) as (W1 & W2 & W3).
  assert (G : good (whole items) = true). { rewrite W2. apply forallb_forall. intros x Hx. rewrite Forall_forall in Hf. exact (Hf x Hx). }
  destruct (marshal_good (whole items) W1 G 0) as (out & E & L). rewrite dump_whole, E.
  rewrite <- (app_nil_r out), (read_toks out _ L [] eq_refl I). cbn [option_map]. rewrite W3. reflexivity.
Qed.
Theorem items_lost : forall items x, Forall no_objects items -> In x (numbers items) -> finite x = false -> dump_json F fmt finite mm items = [].
Proof.
  intros items x H Hx E. destruct (whole_ok items H) as (W1 & W2 & _).
  assert (G : good (whole items) = false). { rewrite W2. destruct (forallb finite (numbers items)) eqn:B; [|reflexivity]. rewrite forallb_forall in B. rewrite (B x Hx) in E. discriminate E. }
  rewrite dump_whole, (marshal_bad _ W1 G). reflexivity.
Qed.
End Thms.

Theorem document_shown : forall (fmt : NumF64 -> bytes) mm mutated order doc format xml_fmt, (forall tp p l, Permutation (order tp p l) l) ->
  (forall x, f64_finite x = true -> number_literal (fmt x)) -> format <> $"xml" ->
  let items := describe NumF64 f64_finite mutated order doc in let out := dump NumF64 fmt f64_finite mm xml_fmt format items in
  (Forall (fun x => f64_finite x = true) (numbers items) -> option_map normal (read_json out) = Some (description_shown fmt items)) /\
  (forall x, In x (numbers items) -> f64_finite x = false -> out = []).
Proof.
  intros fmt mm mutated order doc format xml_fmt Ho Hl Hf items out. subst out. unfold dump.
  destruct (beqb format ($"xml")) eqn:E; [apply beqb_eq in E; congruence|].
  assert (N : Forall no_objects items) by (apply describe_no_objects; [exact Ho|reflexivity]). split.
  - exact (items_shown fmt f64_finite mm Hl items N).
  - intros x Hx E1. exact (items_lost fmt f64_finite mm items x N Hx E1).
Qed.
(** A document with a margin that is not a number. *)
Definition nan_doc : Document NumF64 :=
  mkDoc NumF64 (mkMeta [] [] []) (mkPage NumF64 ($"portrait") ($"A4") (mkQuad (@zero NumF64) (S754_nan : NumF64) (@zero NumF64) (@zero NumF64))) [] [] [] [ITextBlock ($"text")].
Lemma nan_lost : exists doc, forall (fmt : NumF64 -> bytes) mm xml_fmt mutated order, (forall tp p l, Permutation (order tp p l) l) ->
  dump NumF64 fmt f64_finite mm xml_fmt ($"json") (describe NumF64 f64_finite mutated order doc) = [] /\
  read_xml (dump NumF64 fmt f64_finite mm xml_fmt ($"xml") (describe NumF64 f64_finite mutated order doc)) = Some (description_tree xml_fmt (describe NumF64 f64_finite mutated order doc)).
Proof.
  exists nan_doc. intros fmt mm xml_fmt mutated order Ho. split.
  - assert (N : Forall no_objects (describe NumF64 f64_finite mutated order nan_doc)) by (apply describe_no_objects; [exact Ho|reflexivity]).
    apply (items_lost fmt f64_finite mm _ (S754_nan : NumF64) N); [|reflexivity].
    unfold numbers, describe. cbn [flat_map]. apply in_or_app. right. apply in_or_app. left. right. left. reflexivity.
  - apply document_dumped. exact Ho.
Qed.
Theorem repaired_valid : forall rs, Forall (fun r => valid_rune r = true) rs -> repaired (encode rs) = encode rs.
Proof. intros rs H. unfold repaired. rewrite decode_encode by exact H. reflexivity. Qed.
