(** Dumped descriptions: the theorems. *)
From Coq Require Import ZArith Lia Permutation.
From Verif Require Import GoStr GoStrFacts Utf8 Utf8Facts Num Style Class Instr Load Describe DescribeSpec DescribeFacts DescribeThms DescribeProofs Dump DumpSpec DumpFacts.
Local Open Scope nat_scope.

Section Thms.
Context {F : Num}.
Variable fmt : F -> bytes.

Lemma item_rect' : forall P : item F -> Prop,
  (forall n v ds items, Forall P items -> P (mkItem n v ds items)) -> forall it, P it.
Proof.
  intros P H. fix IH 1. intros [n v ds items]. apply H. induction items; constructor; [apply IH|assumption].
Qed.
Ltac nm := split; [cbn; intuition discriminate|intros; discriminate].
Lemma jval_named : forall j, named (jval_go F fmt j).
Proof. intros []; constructor. Qed.
Lemma diff_named : forall d, named (diff_go F fmt d).
Proof.
  intros [p o m]. unfold diff_go. cbn [d_path d_org d_mod]. constructor.
  constructor; [split; [nm|constructor]|]. constructor; [split; [nm|destruct o; [apply jval_named|constructor]]|].
  constructor; [split; [nm|apply jval_named]|constructor].
Qed.
Lemma item_named : forall it, named (item_go F fmt it).
Proof.
  apply item_rect'. intros n v ds items IH. cbn [item_go]. constructor.
  constructor; [split; [nm|constructor]|]. constructor; [split; [nm|destruct v; constructor]|].
  constructor; [split; [nm|constructor]|]. { apply Forall_map, Forall_forall. intros; apply diff_named. }
  constructor; [split; [nm|constructor]|constructor]. apply Forall_map. exact IH.
Qed.
Lemma forest_slice : forall n l, forest n (GSlice l) = flat_map (forest n) l.
Proof. intros n l. cbn [forest]. induction l; [reflexivity|]. cbn [flat_map]. rewrite <- IHl. reflexivity. Qed.
Lemma diff_forest : forall d, no_object d -> forest ($"StyleDiffs") (diff_go F fmt d) = [diff_tree fmt d].
Proof.
  intros [p o m] [Ho Hm]. unfold diff_go, diff_tree. cbn [d_path d_org d_mod] in *. cbn [forest].
  destruct m; [| |contradiction]; destruct o as [[]|]; try contradiction; reflexivity.
Qed.
Lemma value_forest : forall v, forest ($"Value") (value_go F fmt v) = value_tree fmt v.
Proof. intros []; reflexivity. Qed.
Lemma item_forest : forall it, no_objects it -> forest ($"Items") (item_go F fmt it) = [item_tree fmt it].
Proof.
  apply (item_rect' (fun it => no_objects it -> forest ($"Items") (item_go F fmt it) = [item_tree fmt it])).
  intros n v ds items IH H. inversion H as [? ? ? ? Hd Hi]; subst. cbn [item_go item_tree].
  match goal with |- forest _ (GStruct ?fs) = _ => change (forest ($"Items") (GStruct fs)) with
    [Node ($"Items") [] (forest ($"Name") (GText n) ++ forest ($"Value") (value_go F fmt v) ++ forest ($"StyleDiffs") (GSlice (map (diff_go F fmt) ds)) ++ forest ($"Items") (GSlice (map (item_go F fmt) items)) ++ [])] end.
  rewrite app_nil_r, value_forest, !forest_slice. change (forest ($"Name") (GText n)) with [leaf "Name" n]. cbn [app].
  assert (E1 : flat_map (forest ($"StyleDiffs")) (map (diff_go F fmt) ds) = map (diff_tree fmt) ds);
  [|assert (E2 : flat_map (forest ($"Items")) (map (item_go F fmt) items) = map (item_tree fmt) items); [|rewrite E1, E2; reflexivity]].
  - induction Hd as [|d ds Hx Hd IHd]; [reflexivity|]. cbn [map flat_map]. rewrite diff_forest by exact Hx. rewrite IHd; [reflexivity|].
    constructor; assumption.
  - clear H Hd. induction IH as [|x items Hx IH IHi]; [reflexivity|]. inversion Hi; subst. cbn [map flat_map]. rewrite Hx by assumption. rewrite IHi by assumption. reflexivity.
Qed.
Lemma marshal_slice : forall d n l, (forall x, In x l -> exists o, marshal_value d n x = Some o) -> exists o, marshal_value d n (GSlice l) = Some o.
Proof.
  intros d n l H. cbn [marshal_value]. induction l as [|x l IH]; [exists []; reflexivity|].
  destruct (H x (or_introl eq_refl)) as [a Ea]. destruct IH as [b Eb]; [intros y Hy; apply H; right; exact Hy|]. rewrite Ea, Eb. eexists. reflexivity.
Qed.
Lemma diff_marshal : forall d n x, no_object x -> exists o, marshal_value d n (diff_go F fmt x) = Some o.
Proof.
  intros d n [p o m] [Ho Hm]. unfold diff_go. cbn [d_path d_org d_mod] in *. cbn [marshal_value].
  destruct m; [| |contradiction]; destruct o as [[]|]; try contradiction; eexists; reflexivity.
Qed.
Lemma item_marshal : forall it d n, no_objects it -> exists o, marshal_value d n (item_go F fmt it) = Some o.
Proof.
  apply (item_rect' (fun it => forall d n, no_objects it -> exists o, marshal_value d n (item_go F fmt it) = Some o)).
  intros n0 v ds items IH d n H. inversion H as [? ? ? ? Hd Hi]; subst. cbn [item_go].
  destruct (marshal_slice (S d) ($"StyleDiffs") (map (diff_go F fmt) ds)) as [a Ea].
  { intros x Hx. apply in_map_iff in Hx as (y & <- & Hy). apply diff_marshal. rewrite Forall_forall in Hd. apply Hd. exact Hy. }
  destruct (marshal_slice (S d) ($"Items") (map (item_go F fmt) items)) as [b Eb].
  { intros x Hx. apply in_map_iff in Hx as (y & <- & Hy). rewrite Forall_forall in IH, Hi. apply IH; [exact Hy|]. apply Hi. exact Hy. }
  destruct (marshal_value (S d) ($"Value") (value_go F fmt v)) as [c|] eqn:Ec; [|destruct v; discriminate].
  cbn [marshal_value] in Ea, Eb |- *. rewrite Ea, Eb, Ec. eexists. reflexivity.
Qed.
Theorem dump_read : forall items tail t0, Forall no_objects items -> lex false [] tail = Some [Data t0] -> blank t0 = true ->
  read_xml (dump_xml F fmt items ++ tail) = Some (description_tree fmt items).
Proof.
  intros items tail t0 H Htail Hblank. unfold dump_xml, marshal.
  destruct (marshal_slice 1 ($"Items") (map (item_go F fmt) items)) as [o E].
  { intros x Hx. apply in_map_iff in Hx as (y & <- & Hy). rewrite Forall_forall in H. apply item_marshal, H. exact Hy. }
  assert (Hn : name_ok ($"Items")) by nm.
  assert (R : reads (o ++ []) (map (item_tree fmt) items)).
  { rewrite app_nil_r. replace (map (item_tree fmt) items) with (forest ($"Items") (GSlice (map (item_go F fmt) items))).
    - eapply marshal_reads; [exact Hn| |exact E]. constructor. apply Forall_map, Forall_forall. intros; apply item_named.
    - rewrite forest_slice. clear E. induction H; [reflexivity|]. cbn [map flat_map]. rewrite item_forest by assumption. rewrite IHForall. reflexivity. }
  change (marshal_value 0 ($"Description") (GStruct [($"Items", GSlice (map (item_go F fmt) items))]))
    with (match match marshal_value 1 ($"Items") (GSlice (map (item_go F fmt) items)) with Some a => Some (a ++ []) | None => None end with
          | None => None
          | Some inner => Some (newline 0 ++ open_tag ($"Description") ++ inner ++ match inner with [] => [] | _ => newline 0 end ++ close_tag ($"Description"))
          end).
  rewrite E. cbn [newline indent Nat.mul repeat app].
  assert (Hd : name_ok ($"Description")) by nm.
  destruct R as [Re R]. change (read_xml ?s) with (rd [] s []).
  pose proof (rd_open [] ($"Description") ((o ++ []) ++ match o ++ [] with [] => [] | _ => newline 0 end ++ close_tag ($"Description") ++ tail) [] (fun H => H) Hd) as O.
  cbn [app] in O. rewrite <- !app_assoc. rewrite <- !app_assoc in O. etransitivity; [exact O|]. change (blank (resolve_refs [])) with true. cbn iota.
  destruct (R (match o ++ [] with [] => [] | _ => newline 0 end ++ close_tag ($"Description") ++ tail) ($"Description") [] [] [] eq_refl) as (t' & B & N & Q).
  rewrite <- !app_assoc in Q. etransitivity; [exact Q|].
  rewrite rd_close; [|destruct (o ++ []); [intros []|apply indent_no_tag]|apply Hd].
  rewrite Htail. cbn [nest]. rewrite beqb_same, (app_nil_r (rev (map (item_tree fmt) items))).
  match goal with |- context [close ?x] => assert (C : close x = Some (description_tree fmt items)) end.
  { unfold close, description_tree. destruct (map (item_tree fmt) items) as [|k f].
    - rewrite N by reflexivity. pose proof (proj1 Re eq_refl) as Z. destruct o; [reflexivity|discriminate Z].
    - destruct (rev (k :: f)) as [|k' f'] eqn:Er; [apply (f_equal (@List.length tree)) in Er; rewrite rev_length in Er; discriminate|].
      rewrite <- Er, rev_involutive.
      rewrite blank_app; [reflexivity|exact B|]. destruct (o ++ []); reflexivity. }
  rewrite C, Hblank. reflexivity.
Qed.

(** ** Descriptions hold no objects *)
Variable finite : F -> bool.
Variable mutated : Styled F -> Styles F -> Styles F.
Variable order : list nat -> bytes -> list (bytes * dres F) -> list (bytes * dres F).
Hypothesis Ho : forall tp p l, Permutation (order tp p l) l.
Hypothesis Hfinite : finite zero = true.
Lemma styles_no_object : forall tp s, Forall no_object (describe_styles F finite order tp s).
Proof.
  intros tp s.
  destruct (forallb (fun f => match snd f s with VFloat x => finite x | _ => true end) (@fields F)) eqn:E.
  - assert (Hs : finite_styles finite s).
    { intros p get x Hin Hg. rewrite forallb_forall in E. specialize (E _ Hin). cbn [snd] in E. rewrite Hg in E. exact E. }
    destruct (styles_diff_lists finite (order tp) (Ho tp) _ _ (zero_finite finite Hfinite) Hs) as (ds & Ed & L).
    unfold describe_styles. rewrite Ed. apply Forall_forall. intros d Hd. apply L in Hd as (get & Hin & _ & E1 & E2).
    pose proof (fields_kind s (zero_styles F) _ _ Hin) as K. pose proof (fields_kind (zero_styles F) (zero_styles F) _ _ Hin) as K'.
    unfold no_object. rewrite E1, E2. split; [destruct (get (zero_styles F))|destruct (get s)]; cbn [show]; exact I || contradiction.
  - assert (Hs : exists p get x, In (p, get) (@fields F) /\ get s = VFloat x /\ finite x = false).
    { destruct (forallb (fun f => match snd f s with VFloat x => finite x | _ => true end) fields) eqn:E' in E; [discriminate|]. clear E.
      revert E'. generalize (@fields F). induction l as [|[p get] l IH]; [discriminate|]. cbn [forallb snd]. intro H.
      destruct (get s) as [b|x|z|vs] eqn:Eg; cbn in H; try (destruct (IH H) as (p' & g & x' & Hin & K); exists p', g, x'; split; [right; exact Hin|exact K]).
      destruct (finite x) eqn:Ex; cbn in H.
      - destruct (IH H) as (p' & g & x' & Hin & K); exists p', g, x'; split; [right; exact Hin|exact K].
      - exists p, get, x. split; [left; reflexivity|]. split; [exact Eg|exact Ex]. }
    destruct Hs as (p & get & x & Hin & Hg & Hx). destruct (describe_styles_error finite order Ho Hfinite tp s p get x Hin Hg Hx) as [k ->].
    constructor; [split; exact I|constructor].
Qed.
Local Notation D := (Forall (@no_objects F)).
Lemma one : forall n v ds l, Forall no_object ds -> D l -> D [mkItem n v ds l].
Proof. intros. constructor; [constructor; assumption|constructor]. Qed.
Lemma instr_no_objects : forall (i : instr F) tp, D (describe_instr F finite mutated order tp i)
with table_no_objects : forall (t : xtable F) tp, D (describe_table F finite mutated order tp t)
with row_no_objects : forall (r : xrow F) tp, D (describe_row F finite mutated order tp r)
with cell_no_objects : forall (c : xcell F) tp, D (describe_cell F finite mutated order tp c)
with part_no_objects : forall (p : xgridpart F) tp, D (describe_part F finite mutated order tp p).
Proof.
  - intros [st|x|x|x|st iss|st iss|st src|t|st t| | |t|r|c|st rows parts|r|p] tp.
    all: try solve [apply one; [first [apply styles_no_object|constructor]|constructor]].
    all: try solve [constructor].
    + rewrite describe_box. apply one; [apply styles_no_object|]. generalize 0 as k.
      induction iss as [|i iss IH]; intro k; [constructor|]. apply Forall_app. split; [apply instr_no_objects|apply IH].
    + rewrite describe_text. apply one; [apply styles_no_object|]. generalize 0 as k.
      induction iss as [|i iss IH]; intro k; [constructor|]. apply Forall_app. split; [apply instr_no_objects|apply IH].
    + apply table_no_objects.
    + rewrite describe_grid. apply one; [apply styles_no_object|]. generalize 0 as k.
      induction rows as [|r rows IH]; intro k.
      * cbn. induction parts as [|p parts IH] in k |- *; [constructor|]. apply Forall_app. split; [apply part_no_objects|apply IH].
      * cbn [grid_from]. constructor; [|apply IH]. constructor; [apply styles_no_object|constructor].
  - intros [st n rows] tp. rewrite describe_table_eq. apply one; [apply styles_no_object|]. generalize 0 as k.
    induction rows as [|r rows IH]; intro k; [constructor|]. apply Forall_app. split; [apply row_no_objects|apply IH].
  - intros [st cells] tp. rewrite describe_row_eq. apply one; [apply styles_no_object|]. generalize 0 as k.
    induction cells as [|r cells IH]; intro k; [constructor|]. apply Forall_app. split; [apply cell_no_objects|apply IH].
  - intros [st cs rs iss] tp. rewrite describe_cell_eq. apply one; [apply styles_no_object|]. generalize 0 as k.
    induction iss as [|i iss IH]; intro k; [constructor|]. apply Forall_app. split; [apply instr_no_objects|apply IH].
  - intros [st a iss] tp. rewrite describe_part_eq. apply one; [apply styles_no_object|]. generalize 0 as k.
    induction iss as [|i iss IH]; intro k; [constructor|]. apply Forall_app. split; [apply instr_no_objects|apply IH].
Qed.
Lemma instructions_no_objects : forall iss tp, D (describe_instructions F finite mutated order tp iss).
Proof.
  intros iss tp. rewrite describe_instructions_eq. generalize 0 as k. induction iss as [|i iss IH]; intro k; [constructor|].
  apply Forall_app. split; [apply instr_no_objects|apply IH].
Qed.
Theorem describe_no_objects : forall doc, D (describe F finite mutated order doc).
Proof.
  intro doc. unfold describe, describe_meta, describe_page, describe_margins.
  repeat first [apply instructions_no_objects|constructor].
Qed.
End Thms.

Lemma legible_same : forall rs, Forall expressible rs -> legible (encode rs) = encode rs.
Proof.
  intros rs H. unfold legible. rewrite decode_encode.
  - f_equal. induction H as [|r rs Hr _ IH]; [reflexivity|]. cbn [map]. rewrite IH. f_equal. rewrite legible_xml.
    replace (xml_char r) with true; [reflexivity|]. symmetry. unfold xml_char, between. unfold expressible in Hr.
    destruct Hr as [->|[->|[->|Hr]]]; [reflexivity..|].
    destruct Hr as [Hr|[Hr|Hr]].
    all: rewrite (proj2 (N.leb_le _ _) (proj1 Hr)).
    + replace (r <=? 55295)%N with true by (symmetry; apply N.leb_le; lia). rewrite !Bool.orb_true_r. reflexivity.
    + replace (r <=? 65533)%N with true by (symmetry; apply N.leb_le; lia). rewrite !Bool.orb_true_r. reflexivity.
    + replace (r <=? 1114111)%N with true by (symmetry; apply N.leb_le; lia). rewrite !Bool.orb_true_r. reflexivity.
  - unfold valid_runes. eapply Forall_impl; [|exact H]. intros r Hr. apply valid_rune_intro; unfold expressible in Hr; lia.
Qed.

Theorem document_dumped : forall (fmt : NumF64 -> bytes) mutated order doc, (forall tp p l, Permutation (order tp p l) l) ->
  let items := describe NumF64 f64_finite mutated order doc in
  read_xml (dump_xml NumF64 fmt items) = Some (description_tree fmt items).
Proof.
  intros fmt mutated order doc Ho items. rewrite <- (app_nil_r (dump_xml _ _ _)). apply (dump_read fmt items [] []); [|reflexivity..].
  apply describe_no_objects; [exact Ho|reflexivity].
Qed.
Theorem items_dumped : forall (F : Num) (fmt : F -> bytes) items, Forall no_objects items ->
  read_xml (dump_xml F fmt items) = Some (description_tree fmt items).
Proof. intros F fmt items H. rewrite <- (app_nil_r (dump_xml _ _ _)). apply (dump_read fmt items [] []); [exact H|reflexivity..]. Qed.
Theorem main_prints : forall (fmt : NumF64 -> bytes) load mutated order args, (forall tp p l, Permutation (order tp p l) l) ->
  let file := match args with [] => $"../../examples/grid.xml" | a :: _ => a end in
  let '(code, printed) := describe_main NumF64 fmt load f64_finite mutated order args in
  exists own, printed = snd (load file) ++ own /\
  match fst (load file) with
  | inl doc => code = 0 /\ read_xml own = Some (description_tree fmt (describe NumF64 f64_finite (mutated doc) order doc))
  | inr err => code = 2 /\ own = $"ERROR: " ++ err ++ [lf]
  end.
Proof.
  intros fmt load mutated order args Ho file. unfold describe_main. subst file. destruct (load _) as [[doc|err] said]; cbv beta iota; (eexists; split; [reflexivity|]); cbn [fst]; [|split; reflexivity].
  split; [reflexivity|]. apply (dump_read fmt _ [lf] [lf]); [|reflexivity..]. apply describe_no_objects; [exact Ho|reflexivity].
Qed.
