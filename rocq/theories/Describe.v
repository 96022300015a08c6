(** Model of package xdoc: describing a document and style differences. *)
From Verif Require Import GoStr GoFmt Utf8 Num Style Class Instr Load.

(** ** JSON *)
(** Struct types for encoding/json: fields with their key, [None] for an embedded struct, whose
    fields become fields of the outer struct. (The rules for equal keys never apply.) *)
Inductive jtype := JLeaf | JStruct (fs : list (option bytes * jtype)).
Definition jfields (l : list String.string) : jtype := JStruct (map (fun k => (Some ($ k), JLeaf)) l).
(** The type Styles (style/style.go:3-11 and the declarations cited in [Style]); HAlign and VAlign
    are embedded strings, whose key is the type name. *)
Definition json_type : jtype :=
  let quad := jfields ["Left"; "Top"; "Right"; "Bottom"]%string in
  let rgb := jfields ["R"; "G"; "B"]%string in
  JStruct [
    (None, jfields ["Family"; "PointSize"; "Style"; "Weight"; "Decoration"]%string);
    (None, JStruct [(Some ($"Border"), quad); (Some ($"Padding"), quad); (Some ($"Margin"), quad)]);
    (None, jfields ["Width"; "Height"; "LineSpacing"; "OffsetX"; "OffsetY"]%string);
    (None, jfields ["ColumnWidth"]%string);
    (None, jfields ["HAlign"; "VAlign"]%string);
    (None, JStruct [(Some ($"Foreground"), rgb); (Some ($"Text"), rgb); (Some ($"Background"), rgb)]);
    (None, jfields ["LineWidth"]%string)].

(** xdoc/describe.go:12-16 *)
Definition clear_str (s : bytes) : bytes :=
  trim is_sp (replace_all (replace_all s [lf] []) [sp; sp] []).

Section Describe.
Variable F : Num.
(** Neither NaN nor infinite *)
Variable finite : F -> bool.

(** The values json.Unmarshal stores in an interface{} *)
Inductive jval := JStr (s : bytes) | JNum (x : F) | JObj (l : list (bytes * jval)).

(** json.Marshal followed by json.Unmarshal: [None] for values JSON cannot express. Floats come
    back unchanged (they are written in the shortest form that reads back), integers as the
    nearest float64, strings with invalid UTF-8 replaced. *)
Fixpoint to_json (t : jtype) (v : gval F) {struct t} : option jval :=
  match t, v with
  | JLeaf, VStr s => Some (JStr (encode (decode s)))
  | JLeaf, VFloat x => if finite x then Some (JNum x) else None
  | JLeaf, VInt z => Some (JNum (of_Z z))
  | JStruct fs, VStruct vs =>
      option_map JObj ((fix go (fs : list (option bytes * jtype)) (vs : list (gval F)) {struct fs} : option (list (bytes * jval)) :=
        match fs, vs with
        | [], [] => Some []
        | (k, t) :: fs', v :: vs' =>
            match to_json t v, go fs' vs' with
            | Some j, Some l => Some (match k, j with Some k, _ => (k, j) :: l | None, JObj m => m ++ l | None, _ => l end)
            | _, _ => None
            end
        | _, _ => None
        end) fs vs)
  | _, _ => None
  end.
(** xdoc/diff.go:22-27 toMapStringInterface; the errors are ignored, leaving an empty map *)
Definition to_map (s : Styles F) : jval :=
  match to_json json_type (styles_val s) with Some j => j | None => JObj [] end.

(** ** Differences *)
(** xdoc/diff.go:10-14 *)
Record diff := mkDiff { d_path : bytes; d_org : option jval; d_mod : jval }.
Inductive dres := DOk (ds : list diff) | DErr (message : bytes).
Fixpoint lookup (k : bytes) (m : list (bytes * jval)) : option jval :=
  match m with [] => None | (k', v) :: m' => if beqb k k' then Some v else lookup k m' end.
(** == on interface values, here never two maps *)
Definition jeq (a b : jval) : bool :=
  match a, b with JStr s, JStr t => beqb s t | JNum x, JNum y => eqb x y | _, _ => false end.
(** %T *)
Definition type_name (j : jval) : bytes :=
  match j with JStr _ => $"string" | JNum _ => $"float64" | JObj _ => $"map[string]interface {}" end.
(** xdoc/diff.go:33-47, the loop over the map, given what each round yields *)
Fixpoint gather (rounds : list (bytes * dres)) : dres :=
  match rounds with
  | [] => DOk []
  | (_, DErr e) :: _ => DErr e
  | (_, DOk ds) :: rounds' => match gather rounds' with DOk ds' => DOk (ds ++ ds') | DErr e => DErr e end
  end.
(** xdoc/diff.go:29-58 interfaceDiff; [order path] is the order in which the map at [path] is
    iterated over *)
Fixpoint idiff (order : bytes -> list (bytes * dres) -> list (bytes * dres)) (path : bytes) (org new : jval) {struct org} : dres :=
  match org with
  | JObj l =>
      gather (order path (map (fun kv => let '(k, v) := kv in (k,
        match new with
        | JObj m =>
            match lookup k m with
            | Some v' =>
                match idiff order (path ++ $":" ++ k) v v' with
                | DOk ds => DOk ds
                | DErr e => DErr ($"interface diff: " ++ e)                          (* :44 *)
                end
            | None => DErr (path ++ $" (MSI): key " ++ k ++ $" does not exist in modified MSI")  (* :40 *)
            end
        | _ => DErr (path ++ $": org value is map-string-iface. mod is " ++ type_name new)  (* :36 *)
        end)) l))
  | _ => if jeq org new then DOk [] else DOk [mkDiff path (Some org) new]            (* :49-54 *)
  end.
(** xdoc/diff.go:16-20 *)
Definition styles_diff order (org new : Styles F) : dres := idiff order ($"styles") (to_map org) (to_map new).

(** ** Describe *)
(** xdoc/describe.go:18-23; Value is a string or a float, or not set *)
Inductive value := NoValue | StrValue (s : bytes) | NumValue (x : F).
Inductive item := mkItem (name : bytes) (v : value) (diffs : list diff) (items : list item).

Definition zero_quad : Quad F := mkQuad zero zero zero zero.
(** style.Styles{} *)
Definition zero_styles : Styles F :=
  mkStyles (mkFont [] zero [] [] []) (mkBox (mkQuad 0 0 0 0)%Z zero_quad zero_quad) (mkDim zero zero zero zero zero) zero
    (mkAlign [] []) (mkColor (mkRGB 0 0 0) (mkRGB 0 0 0) (mkRGB 0 0 0))%Z zero.

(** MutatedStyles with the classes of the document ([Class], C24), and the iteration orders of the
    maps, for the item at a position in the tree *)
Variable mutated : Styled F -> Styles F -> Styles F.
Variable order : list nat -> bytes -> list (bytes * dres) -> list (bytes * dres).
Local Notation instr := (instr F).

(** xdoc/describe.go:307-320, given the mutated styles *)
Definition describe_styles (tp : list nat) (s : Styles F) : list diff :=
  match styles_diff (order tp) zero_styles s with
  | DOk ds => ds
  | DErr e => [mkDiff ($"ERROR") None (JStr e)]
  end.
Definition describe_mutator (tp : list nat) (st : Styled F) : list diff := describe_styles tp (mutated st zero_styles).
(** xdoc/style.go:52-54 NoStyles.MutatedStyles *)
Definition describe_no_styles (tp : list nat) : list diff := describe_styles tp zero_styles.

(** xdoc/describe.go:207-281 describeInstructions, one round, and :143-205 *)
Fixpoint describe_instr (tp : list nat) (i : instr) {struct i} : list item :=
  let all := fix all (k : nat) (iss : list instr) {struct iss} : list item :=
    match iss with [] => [] | i :: iss' => describe_instr (k :: tp) i ++ all (S k) iss' end in
  match i with
  | IFont st => [mkItem ($"font") NoValue (describe_mutator tp st) []]
  | ILineFeed x => [mkItem ($"line-feed") (NumValue x) (describe_no_styles tp) []]
  | ISetX x => [mkItem ($"setx") (NumValue x) (describe_no_styles tp) []]
  | ISetY x => [mkItem ($"sety") (NumValue x) (describe_no_styles tp) []]
  | IBox st iss => [mkItem ($"box") NoValue (describe_mutator tp st) (all 0 iss)]
  | IText st iss => [mkItem ($"text") NoValue (describe_mutator tp st) (all 0 iss)]
  | IParagraph st t => [mkItem ($"paragraph") (StrValue (clear_str t)) (describe_mutator tp st) []]
  | ILineBreak => [mkItem ($"line-break") NoValue [] []]
  | IPageBreak => [mkItem ($"page-break") NoValue [] []]
  | ITextBlock t => [mkItem ($"text-block") (StrValue (clear_str t)) [] []]
  | IImage st src => [mkItem ($"image") (StrValue src) (describe_mutator tp st) []]
  | ITable t => describe_table tp t
  | IGrid st rows parts =>                                                         (* :174-186 *)
      [mkItem ($"grid") NoValue (describe_mutator tp st)
        ((fix go (k : nat) (l : list (xgridrow F)) : list item :=
            match l with
            | [] => (fix go' (k : nat) (l : list (xgridpart F)) {struct l} : list item :=
                       match l with [] => [] | p :: l' => describe_part (k :: tp) p ++ go' (S k) l' end) k parts
            | r :: l' => mkItem ($"grid-row") (StrValue (str_join ($" ") (gr_areas r))) (describe_mutator (k :: tp) (gr_styled r)) [] :: go (S k) l'   (* :188-195 *)
            end) 0 rows)]
  | ITableRow _ | ITableCell _ | IGridRow _ | IGridPart _ => []                       (* no case *)
  end
with describe_table (tp : list nat) (t : xtable F) {struct t} : list item :=          (* :143-152 *)
  match t with
  | XTable st _ rows => [mkItem ($"table") NoValue (describe_mutator tp st)
      ((fix go (k : nat) (l : list (xrow F)) {struct l} : list item :=
          match l with [] => [] | r :: l' => describe_row (k :: tp) r ++ go (S k) l' end) 0 rows)]
  end
with describe_row (tp : list nat) (r : xrow F) {struct r} : list item :=              (* :154-163 *)
  match r with
  | XRow st cells => [mkItem ($"table-row") NoValue (describe_mutator tp st)
      ((fix go (k : nat) (l : list (xcell F)) {struct l} : list item :=
          match l with [] => [] | c :: l' => describe_cell (k :: tp) c ++ go (S k) l' end) 0 cells)]
  end
with describe_cell (tp : list nat) (c : xcell F) {struct c} : list item :=            (* :165-172 *)
  match c with
  | XCell st cs rs iss => [mkItem ($"table-cell colspan=" ++ itoa cs ++ $" rowspan=" ++ itoa rs) NoValue (describe_mutator tp st)
      ((fix all (k : nat) (iss : list instr) {struct iss} : list item :=
          match iss with [] => [] | i :: iss' => describe_instr (k :: tp) i ++ all (S k) iss' end) 0 iss)]
  end
with describe_part (tp : list nat) (p : xgridpart F) {struct p} : list item :=        (* :197-205 *)
  match p with
  | XGridPart st area iss => [mkItem ($"grid-part") (StrValue area) (describe_mutator tp st)
      ((fix all (k : nat) (iss : list instr) {struct iss} : list item :=
          match iss with [] => [] | i :: iss' => describe_instr (k :: tp) i ++ all (S k) iss' end) 0 iss)]
  end.
Definition describe_instructions (tp : list nat) (iss : list instr) : list item :=
  (fix all (k : nat) (iss : list instr) : list item :=
     match iss with [] => [] | i :: iss' => describe_instr (k :: tp) i ++ all (S k) iss' end) 0 iss.

(** xdoc/describe.go:88-103 *)
Definition describe_meta (m : Meta) : list item :=
  [mkItem ($"author") (StrValue (m_author m)) [] []; mkItem ($"creator") (StrValue (m_creator m)) [] [];
   mkItem ($"subject") (StrValue (m_subject m)) [] []].
(** xdoc/describe.go:122-141 *)
Definition describe_margins (q : Quad F) : list item :=
  [mkItem ($"left") (NumValue (QRight q)) [] []; mkItem ($"top") (NumValue (QTop q)) [] [];
   mkItem ($"right") (NumValue (QRight q)) [] []; mkItem ($"bottom") (NumValue (QBottom q)) [] []].
(** xdoc/describe.go:105-120 *)
Definition describe_page (p : Page F) : list item :=
  [mkItem ($"orientation") (StrValue (p_orientation F p)) [] []; mkItem ($"format") (StrValue (p_format F p)) [] [];
   mkItem ($"margins") NoValue [] (describe_margins (p_margins F p))].
(** xdoc/describe.go:50-86; the items of the description *)
Definition describe (doc : Document F) : list item :=
  [mkItem ($"meta") NoValue [] (describe_meta (doc_meta F doc));
   mkItem ($"page") NoValue [] (describe_page (doc_page F doc));
   mkItem ($"header") NoValue [] (describe_instructions [2] (doc_header F doc));
   mkItem ($"footer") NoValue [] (describe_instructions [3] (doc_footer F doc));
   mkItem ($"body") NoValue [] (describe_instructions [4] (doc_body F doc))].
End Describe.
Arguments JStr {F}. Arguments JNum {F}. Arguments JObj {F}. Arguments mkDiff {F}. Arguments d_path {F}. Arguments d_org {F}. Arguments d_mod {F}.
Arguments DOk {F}. Arguments DErr {F}. Arguments NoValue {F}. Arguments StrValue {F}. Arguments NumValue {F}. Arguments mkItem {F}.
