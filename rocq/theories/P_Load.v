(** Properties C67-C69 and C78: loading documents.

    [load] is Load on the tokens of the XML decoder; strconv.ParseFloat, the scanning of floats
    and the iteration orders of maps are arbitrary. [tokens_of toks kids] says that [kids] are
    the contents of the root element. The specification is in LoadSpec and LoadDocSpec. *)
From Coq Require Import ZArith QArith.
From Verif Require Import GoStr Num Style Class Instr Xml Load LoadSpec LoadDocSpec LoadThms LoadWit LoadStyleSpec LoadStyle ClassView Proc Utf8 StyleSpec LoadNum.
Local Open Scope nat_scope.

(** C67, first part: in every loaded document, every table at any depth. *)
Theorem C67_bounded : forall (F : Num) (parse_float convert_float : bytes -> option F) order sheet_order toks doc cs,
  load F parse_float convert_float order sheet_order toks = LOk F doc cs -> forall i st n rows,
  In i (doc_header F doc ++ doc_footer F doc ++ doc_body F doc) -> has_table i (XTable st n rows) -> (0 <= n <= 10)%Z.
Proof. exact @load_bounded. Qed.
Print Assumptions C67_bounded.
Example C67_bounded_example : exists doc cs i rows, sample_load (root sample_kids) = LOk NumQ doc cs /\
  In i (doc_body NumQ doc) /\ has_table i (XTable plain 2 rows).
Proof.
  assert (E : body_of (sample_load (root sample_kids)) = Some [ITextBlock ($"one"); IParagraph (mkStyled [] [$"x"; $"y"]) ($"two");
    IBox plain [ITable (XTable plain 2 [XRow plain [XCell plain 2 0 [ITextBlock ($"a"); ITextBlock ($"b"); ILineBreak; ITextBlock ($"c")]]])]])
    by (vm_compute; reflexivity).
  destruct (sample_load (root sample_kids)) as [doc cs| | |]; try discriminate E.
  unfold body_of in E. injection E as E. exists doc, cs. do 2 eexists. split; [reflexivity|]. rewrite E.
  split; [right; right; left; reflexivity|]. eapply T_box; [left; reflexivity|constructor].
Qed.
(** C67, second part, proved: other values make Load fail, for tables with nothing but boxes,
    texts, tables and rows around them. *)
Theorem C67_fails_partial : forall (F : Num) (parse_float convert_float : bytes -> option F) order sheet_order toks kids s p a ks,
  tokens_of toks kids -> In s sections -> only_blocks (under s kids) (Elem p ($"table") a ks) ->
  attr_value between0_10 ($"repeatheader") a 0%Z = None -> load F parse_float convert_float order sheet_order toks = LErr F.
Proof. exact @table_fails. Qed.
Print Assumptions C67_fails_partial.
Example C67_fails_example : let kids := [el "body" [] [el "box" [] [el "table" [("repeatheader", "11")] []]]]%string in
  tokens_of (root kids) kids /\ In ($"body") sections /\ only_blocks (under ($"body") kids) (el "table" [("repeatheader", "11")] [])%string /\
  attr_value between0_10 ($"repeatheader") [($"repeatheader", $"11")] 0%Z = None /\ sample_load (root kids) = LErr NumQ /\
  sample_load (root [el "body" [] [el "box" [] [el "table" [("repeatheader", "10")] []]]]%string) <> LErr NumQ.
Proof.
  cbv zeta. split; [apply root_tokens|]. split; [right; right; left; reflexivity|].
  split; [eapply O_deep; [left; reflexivity|left; reflexivity|apply O_here; left; reflexivity]|].
  split; [vm_compute; reflexivity|]. split; vm_compute; [reflexivity|discriminate].
Qed.
(** C67, second part, in general, is false: a table in a cell of another table. *)
Theorem C67_refuted : ~ forall (F : Num) (parse_float convert_float : bytes -> option F) order sheet_order toks kids s p a ks,
  tokens_of toks kids -> In s sections -> inside (under s kids) (Elem p ($"table") a ks) ->
  attr_value between0_10 ($"repeatheader") a 0%Z = None -> load F parse_float convert_float order sheet_order toks = LErr F.
Proof.
  intro H.
  pose (kids := [el "body" [] [el "table" [] [el "tr" [] [el "td" [] [el "table" [("repeatheader", "11")] []]]]]]%string).
  assert (E : sample_load (root kids) = LErr NumQ).
  { apply H with (kids := kids) (s := $"body") (p := 0) (a := [($"repeatheader", $"11")]) (ks := []).
    - apply root_tokens.
    - right; right; left; reflexivity.
    - assert (N : forall n, existsb (beqb n) leaves = false -> ~ In n leaves).
      { intros n Hn Hin. assert (T : existsb (beqb n) leaves = true) by (apply existsb_exists; exists n; split; [exact Hin|apply GoStrFacts.beqb_refl]). congruence. }
      do 3 (eapply I_deep; [left; reflexivity|apply N; vm_compute; reflexivity|]). apply I_here. left. reflexivity.
    - vm_compute. reflexivity. }
  vm_compute in E. discriminate E.
Qed.
Print Assumptions C67_refuted.

(** C68, first part *)
Theorem C68_fails : forall (F : Num) (parse_float convert_float : bytes -> option F) order sheet_order toks kids ts p n a ks,
  tokens_of toks kids -> strict_contents kids ts -> In (Elem p n a ks) ts -> ~ In n known ->
  load F parse_float convert_float order sheet_order toks = LErr F.
Proof. exact @unknown_fails. Qed.
Print Assumptions C68_fails.
(** In a box, even in a cell; but in a cell itself it does no harm. *)
Example C68_fails_example :
  let inner := [el "box" [] [el "b" [] []]]%string in
  let kids := [el "body" [] [el "table" [] [el "tr" [] [el "td" [] inner]]]]%string in
  tokens_of (root kids) kids /\ strict_contents kids [el "b" [] []]%string /\ ~ In ($"b") known /\ sample_load (root kids) = LErr NumQ /\
  sample_load (root [el "body" [] [el "table" [] [el "tr" [] [el "td" [] [el "b" [] []]]]]]%string) <> LErr NumQ.
Proof.
  cbv zeta.
  assert (N : forall n l, existsb (beqb n) l = false -> ~ In n l).
  { intros n l Hn Hin. assert (T : existsb (beqb n) l = true) by (apply existsb_exists; exists n; split; [exact Hin|apply GoStrFacts.beqb_refl]). congruence. }
  split; [apply root_tokens|]. split.
  { apply SC_block with (n := $"body") (p := 0) (m := $"box") (a := []); [right; right; left; reflexivity| |left; reflexivity].
    do 3 (eapply I_deep; [left; reflexivity|apply N; vm_compute; reflexivity|]). apply I_here. left. reflexivity. }
  split; [apply N; vm_compute; reflexivity|]. split; vm_compute; [reflexivity|discriminate].
Qed.
(** C68, second part: the document without the tags loads, or fails to load, the same way. *)
Theorem C68_skipped : forall (F : Num) (parse_float convert_float : bytes -> option F) order sheet_order toks toks' kids kids',
  tokens_of toks kids -> tokens_of toks' kids' -> untagged kids kids' ->
  load F parse_float convert_float order sheet_order toks = load F parse_float convert_float order sheet_order toks'.
Proof. exact @untagged_load. Qed.
Print Assumptions C68_skipped.
Example C68_skipped_example :
  let doc l := [el "body" [] [el "table" [] [el "tr" [] [el "td" [] ([ch "a"] ++ l ++ [ch "c"])]]]]%string in
  let l := [ch "b"; el "br" [] []]%string in
  untagged (doc [el "b" [] l]%string) (doc l) /\
  body_of (sample_load (root (doc [el "b" [] l]%string))) =
    Some [ITable (XTable plain 0 [XRow plain [XCell plain 0 0 [ITextBlock ($"a"); ITextBlock ($"b"); ILineBreak; ITextBlock ($"c")]]])].
Proof.
  cbv zeta. assert (N : forall n l, existsb (beqb n) l = false -> ~ In n l).
  { intros n l Hn Hin. assert (T : existsb (beqb n) l = true) by (apply existsb_exists; exists n; split; [exact Hin|apply GoStrFacts.beqb_refl]). congruence. }
  split; [|vm_compute; reflexivity].
  do 3 (apply (U_deep) with (l := []) (r := []); [apply N; vm_compute; reflexivity|]).
  apply U_here with (l := []) (r := []); [left; reflexivity|apply N; vm_compute; reflexivity].
Qed.

(** C69: exactly what Load returns. In a header, footer, body, box, text, table or row
    ([strict]) nothing is lost. *)
Theorem C69_load : forall (F : Num) (parse_float convert_float : bytes -> option F) order sheet_order toks doc cs,
  load F parse_float convert_float order sheet_order toks = LOk F doc cs <->
  exists kids, tokens_of toks kids /\ document_is parse_float (decode_styled F parse_float convert_float order) kids doc /\
    decode_classes F parse_float convert_float sheet_order (doc_style F doc) = COk cs.
Proof. exact @load_iff. Qed.
Print Assumptions C69_load.
Example C69_load_example : exists doc cs, sample_load (root sample_kids) = LOk NumQ doc cs /\
  tokens_of (root sample_kids) sample_kids /\ m_author (doc_meta NumQ doc) = $"BC" /\ QLeft (p_margins NumQ (doc_page NumQ doc)) = 7%Q /\
  doc_body NumQ doc = [ITextBlock ($"one"); IParagraph (mkStyled [] [$"x"; $"y"]) ($"two");
    IBox plain [ITable (XTable plain 2 [XRow plain [XCell plain 2 0 [ITextBlock ($"a"); ITextBlock ($"b"); ILineBreak; ITextBlock ($"c")]]])]].
Proof.
  assert (E : match sample_load (root sample_kids) with
    | LOk _ doc _ => (m_author (doc_meta NumQ doc), QLeft (p_margins NumQ (doc_page NumQ doc)), doc_body NumQ doc) =
        ($"BC", 7%Q : NumQ, [ITextBlock ($"one"); IParagraph (mkStyled [] [$"x"; $"y"]) ($"two");
          IBox plain [ITable (XTable plain 2 [XRow plain [XCell plain 2 0 [ITextBlock ($"a"); ITextBlock ($"b"); ILineBreak; ITextBlock ($"c")]]])]])
    | _ => False end) by (vm_compute; reflexivity).
  destruct (sample_load (root sample_kids)) as [doc cs| | |]; try contradiction E.
  apply pair_equal_spec in E as [E E3]. apply pair_equal_spec in E as [E1 E2].
  exists doc, cs. split; [reflexivity|]. split; [apply root_tokens|]. repeat split; assumption.
Qed.
(** How the texts of attributes are read. Whole numbers, in repeatheader, colspan and rowspan: an
    optional sign and decimal digits, in the range of int64. *)
Theorem C69_integers : forall v z, parse_int v = Some z <-> int_token (map N_of_ascii v) z /\ in_int64 z.
Proof. exact parse_int_iff. Qed.
Print Assumptions C69_integers.
(** Numbers, in margins, lf, setx and sety: spaces around them do not count, no text at all is 0. *)
Theorem C69_numbers : forall (F : Num) (parse_float : bytes -> option F),
  number parse_float [] = Some zero /\
  forall a m b, a ++ m ++ b <> [] -> Forall (fun r => valid_rune r = true) (a ++ m ++ b) -> Forall white_space (a ++ b) ->
  (forall r m', m = r :: m' -> ~ white_space r) -> (forall r m', m = m' ++ [r] -> ~ white_space r) ->
  number parse_float (encode (a ++ m ++ b)) = parse_float (encode m).
Proof. exact @number_encoded. Qed.
Print Assumptions C69_numbers.
(** The areas of a grid row: the texts between single spaces. *)
Theorem C69_areas : forall s l, split_byte sp s = l <-> l <> [] /\ str_join [sp] l = s /\ Forall (fun w => ~ In sp w) l.
Proof. exact (split_iff sp). Qed.
Print Assumptions C69_areas.
Example C69_texts_example :
  parse_int ($"+010") = Some 10%Z /\ parse_int ($"-3") = Some (-3)%Z /\ parse_int ($" 3") = None /\ parse_int ($"") = None /\ parse_int ($"9223372036854775808") = None /\
  number sample_q ($" 7 ") = Some (7%Q : NumQ) /\ split_byte sp ($"a  b") = [$"a"; []; $"b"].
Proof. vm_compute. repeat split; reflexivity. Qed.
(** C69 for cells is false: a paragraph is lost. *)
Theorem C69_refuted : exists a, body_of (sample_load (root
    [el "body" [] [el "table" [] [el "tr" [] [el "td" [] [el "p" a [ch "lost"]; ch "kept"]]]]]%string)) =
  Some [ITable (XTable plain 0 [XRow plain [XCell plain 0 0 [ITextBlock ($"kept")]]])].
Proof. exists [("style", "width:x")]%string. vm_compute. reflexivity. Qed.
Print Assumptions C69_refuted.

(** C78 *)
Theorem C78_returns : forall (F : Num) (parse_float convert_float : bytes -> option F) order sheet_order toks,
  load F parse_float convert_float order sheet_order toks <> LFuel F /\ load F parse_float convert_float order sheet_order toks <> LPanic F.
Proof. exact @load_returns. Qed.
Print Assumptions C78_returns.
Example C78_example : sample_load [TStart 0 ($"document") []; TStart 0 ($"body") []; TEnd ($"x"); TEnd ($"y"); TEnd ($"z")] <> LFuel NumQ.
Proof. vm_compute. discriminate. Qed.

(** C87: computing the styles of an element of a loaded document never panics, whatever the
    surrounding style and the selector. *)
Theorem C87_styles : forall (F : Num) (parse_float convert_float : bytes -> option F) order sheet_order,
  (forall pos second, map_orders (order pos second)) -> map_orders sheet_order ->
  forall toks doc cs, load F parse_float convert_float order sheet_order toks = LOk F doc cs ->
  forall j st, inside_doc doc j -> styles_of j = Some st ->
  forall s, (exists s', mutated_styles cs st s = Some s') /\ forall sel, exists s', mutated_styles_sel sel cs st s = Some s'.
Proof. exact @doc_styles. Qed.
Print Assumptions C87_styles.
(** A paragraph in a cell, with two classes, one of which has a selector, and a style. *)
Definition styled_kids : list node :=
  [el "style" [] [ch "a{width:3} a:first{width:4}"];
   el "body" [] [el "table" [] [el "tr" [] [el "td" [] [el "p" [("class", "a b"); ("style", "height:7")] [ch "x"]]]]]]%string.
Example C87_example : match sample_load (root styled_kids) with
  | LOk _ doc cs => match doc_body NumQ doc with
    | [ITable (XTable _ _ [XRow _ [XCell _ _ _ [IParagraph st _]]])] =>
        option_map (fun s => (Width (SDim s), Height (SDim s))) (mutated_styles_sel ($"first") cs st DefaultStyle) = Some (4%Q, 7%Q)
    | _ => False end
  | _ => False end.
Proof. vm_compute. reflexivity. Qed.
(** Arbitrary mutators can panic: that they come from style texts matters. *)
Example C87_needs_load : mutated_styles (F:=NumQ) [] (mkStyled [[([9]%nat, VInt (F:=NumQ) 1)]] []) DefaultStyle = None.
Proof. vm_compute. reflexivity. Qed.

(** C88: grids of a loaded document are rectangular and their parts name areas of them, and no
    text block is empty, at any depth. *)
Theorem C88_shape : forall (F : Num) (parse_float convert_float : bytes -> option F) order sheet_order,
  (forall pos second, map_orders (order pos second)) ->
  forall toks doc cs, load F parse_float convert_float order sheet_order toks = LOk F doc cs ->
  forall j, inside_doc doc j ->
  match j with IGrid _ rows parts => valid_grid rows parts | ITextBlock t => t <> [] | _ => True end.
Proof. exact @doc_grids. Qed.
Print Assumptions C88_shape.
(** A box with a grid of two rows and a part, which load; rows of different lengths do not, nor
    does a part naming no area. *)
Definition grid_kids (row2 area : string) : list node :=
  [el "body" [] [el "box" [] [el "grid" [] [el "gr" [] [ch "a b"]; el "gr" [] [ch row2]; el "part" [("area", area)] [el "br" [] []]]]]]%string.
Example C88_example :
  body_of (sample_load (root (grid_kids "a c" "c"))) =
    Some [IBox plain [IGrid plain [XGridRow plain [$"a"; $"b"]; XGridRow plain [$"a"; $"c"]] [XGridPart plain ($"c") [ILineBreak]]]] /\
  sample_load (root (grid_kids "a c" "d")) = LErr NumQ /\ sample_load (root (grid_kids "a c d" "c")) = LErr NumQ.
Proof. vm_compute. repeat split; reflexivity. Qed.
