(** Properties C70-C72 and C79: describing documents.

    [describe F finite mutated order doc] are the items of the description of a document, where
    [mutated] is MutatedStyles with the classes of the document, and [order] the iteration orders
    of maps, any permutations. The specification is in DescribeSpec. *)
From Coq Require Import ZArith QArith Permutation Floats.SpecFloat.
From Verif Require Import GoStr Num Style Class Instr Load Describe DescribeSpec DescribeThms DescribeProofs LoadWit DescribeWit.
Local Open Scope nat_scope.

(** C70, with floats as binary64: the items of a description, and what header, footer and body
    show. Rows, cells, grid rows and grid parts are left out where they do not belong. *)
Theorem C70_describe_partial : forall mutated order doc, (forall tp p l, Permutation (order tp p l) l) ->
  let items := describe NumF64 f64_finite mutated order doc in
  map it_name items = [$"meta"; $"page"; $"header"; $"footer"; $"body"] /\
  Forall2 (mirrors f64_finite mutated) (filter shown (doc_header NumF64 doc)) (sub_items ($"header") items) /\
  Forall2 (mirrors f64_finite mutated) (filter shown (doc_footer NumF64 doc)) (sub_items ($"footer") items) /\
  Forall2 (mirrors f64_finite mutated) (filter shown (doc_body NumF64 doc)) (sub_items ($"body") items) /\
  entry_value ($"author") (sub_items ($"meta") items) = Some (StrValue (m_author (doc_meta NumF64 doc))) /\
  entry_value ($"creator") (sub_items ($"meta") items) = Some (StrValue (m_creator (doc_meta NumF64 doc))) /\
  entry_value ($"subject") (sub_items ($"meta") items) = Some (StrValue (m_subject (doc_meta NumF64 doc))) /\
  entry_value ($"orientation") (sub_items ($"page") items) = Some (StrValue (p_orientation NumF64 (doc_page NumF64 doc))) /\
  entry_value ($"format") (sub_items ($"page") items) = Some (StrValue (p_format NumF64 (doc_page NumF64 doc))).
Proof. exact describe_mirrors. Qed.
Print Assumptions C70_describe_partial.
Example C70_example : sample_outline sample_kids =
  [$"text-block"; $"paragraph"; $"box"; $"table"; $"table-row"; $"table-cell colspan=2 rowspan=0"; $"text-block"; $"text-block"; $"line-break"; $"text-block"].
Proof. vm_compute. reflexivity. Qed.
(** In general C70 is false: a row outside of tables is loaded but not shown. *)
Theorem C70_refuted : exists kids, body_of (sample_load (root kids)) = Some [ITableRow (XRow plain []); ILineBreak] /\
  sample_outline kids = [$"line-break"].
Proof. exists [el "body" [] [el "tr" [] []; el "br" [] []]]%string. split; vm_compute; reflexivity. Qed.
Print Assumptions C70_refuted.

(** C71 is false for the left margin, which is shown as the right one. *)
Theorem C71_margins_partial : forall (F : Num) finite mutated order (doc : Document F),
  let items := describe F finite mutated order doc in let m := p_margins F (doc_page F doc) in
  margin_entry ($"top") items = Some (NumValue (QTop m)) /\ margin_entry ($"right") items = Some (NumValue (QRight m)) /\
  margin_entry ($"bottom") items = Some (NumValue (QBottom m)) /\
  (margin_entry ($"left") items = Some (NumValue (QLeft m)) <-> QLeft m = QRight m).
Proof. exact margins_described. Qed.
Print Assumptions C71_margins_partial.
Theorem C71_refuted : exists doc : Document NumQ, forall mutated order, margin_entry ($"left") (describe NumQ (fun _ => true) mutated order doc) <>
  Some (NumValue (QLeft (p_margins NumQ (doc_page NumQ doc)))).
Proof. exists (mkDoc NumQ (mkMeta [] [] []) (mkPage NumQ [] [] (mkQuad 1%Q 0%Q 2%Q 0%Q)) [] [] [] []). intros mutated order H. vm_compute in H. discriminate H. Qed.
Print Assumptions C71_refuted.

(** C72: for styles without NaN and infinities the differences to the zero style are listed
    exactly, each once, whatever the iteration orders. *)
Theorem C72_changes_partial : forall order tp s, (forall tp p l, Permutation (order tp p l) l) -> finite_styles f64_finite s ->
  lists_changes s (describe_styles NumF64 f64_finite order tp s).
Proof. exact changes_listed. Qed.
Print Assumptions C72_changes_partial.
(** Likewise stylesDiff, for any two styles and any kind of numbers. *)
Theorem C72_styles_diff : forall (F : Num) (finite : F -> bool) order, (forall p l, Permutation (order p l) l) ->
  forall org new, finite_styles finite org -> finite_styles finite new ->
  exists ds, styles_diff F finite order org new = DOk ds /\ lists_differences org new ds.
Proof. exact @styles_diff_lists. Qed.
Print Assumptions C72_styles_diff.
Example C72_example : let s := mkStyles (mkFont ($"Arial") 0%Q [] [] []) (mkBox (mkQuad 0 0 3 0)%Z (mkQuad 0 0 0 0)%Q (mkQuad 0 0 0 0)%Q) (mkDim 2 0 0 0 0)%Q 0%Q
    (mkAlign [] []) (mkColor (mkRGB 0 0 0) (mkRGB 0 0 0) (mkRGB 0 0 0))%Z 0%Q in
  finite_styles (F := NumQ) (fun _ => true) s /\
  styles_diff NumQ (fun _ => true) (fun _ l => rev l) (zero_styles NumQ) s =
    DOk [mkDiff ($"styles:Width") (Some (JNum (0%Q : NumQ))) (JNum (2%Q : NumQ)); mkDiff ($"styles:Border:Right") (Some (JNum (0%Q : NumQ))) (JNum (3%Q : NumQ));
         mkDiff ($"styles:Family") (Some (JStr [])) (JStr ($"Arial"))].
Proof. split; [repeat intro; reflexivity|vm_compute; reflexivity]. Qed.
(** In general C72 is false: one infinite or undefined number hides all differences, and what is
    shown instead depends on the iteration order. *)
Theorem C72_not_finite : forall order tp s p get x, (forall tp p l, Permutation (order tp p l) l) ->
  In (p, get) fields -> get s = VFloat x -> f64_finite x = false ->
  exists k, describe_styles NumF64 f64_finite order tp s =
    [mkDiff ($"ERROR") None (JStr ($"styles (MSI): key " ++ k ++ $" does not exist in modified MSI"))].
Proof. exact not_finite_listed. Qed.
Print Assumptions C72_not_finite.
Theorem C72_refuted : exists s, ~ lists_changes s (describe_styles NumF64 f64_finite (fun _ _ l => l) [] s) /\
  describe_styles NumF64 f64_finite (fun _ _ l => l) [] s <> describe_styles NumF64 f64_finite (fun _ _ l => rev l) [] s.
Proof. exact infinite_width. Qed.
Print Assumptions C72_refuted.

(** C79 *)
Theorem C79_clean : forall s, clean (clear_str s) /\ letters (clear_str s) = letters s.
Proof. exact clear_str_clean. Qed.
Print Assumptions C79_clean.
Example C79_example : clear_str ($"   a b  c" ++ [lf] ++ $" d  ") = $"a bc d".
Proof. vm_compute. reflexivity. Qed.
