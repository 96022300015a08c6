(** Specification of descriptions and style differences (C70-C72, C79). *)
From Coq Require Import Permutation Floats.SpecFloat.
From Verif Require Import GoStr GoFmt Utf8 Num Style Class Instr Load Describe.

Section Spec.
Context {F : Num}.
Variable finite : F -> bool.

(** ** Style differences *)
(** The fields of a style and their paths. *)
Definition quad_fields {A} (p : String.string) (v : A -> gval F) (get : Styles F -> Quad A) : list (bytes * (Styles F -> gval F)) :=
  [($"styles:" ++ $ p ++ $":Left", fun s => v (QLeft (get s))); ($"styles:" ++ $ p ++ $":Top", fun s => v (QTop (get s)));
   ($"styles:" ++ $ p ++ $":Right", fun s => v (QRight (get s))); ($"styles:" ++ $ p ++ $":Bottom", fun s => v (QBottom (get s)))].
Definition rgb_fields (p : String.string) (get : Styles F -> RGB) : list (bytes * (Styles F -> gval F)) :=
  [($"styles:" ++ $ p ++ $":R", fun s => VInt (R (get s))); ($"styles:" ++ $ p ++ $":G", fun s => VInt (G (get s)));
   ($"styles:" ++ $ p ++ $":B", fun s => VInt (B (get s)))].
Definition fields : list (bytes * (Styles F -> gval F)) :=
  [($"styles:Family", fun s => VStr (Family (SFont s))); ($"styles:PointSize", fun s => VFloat (PointSize (SFont s)));
   ($"styles:Style", fun s => VStr (FStyle (SFont s))); ($"styles:Weight", fun s => VStr (Weight (SFont s)));
   ($"styles:Decoration", fun s => VStr (Decoration (SFont s)))] ++
  quad_fields "Border" (VInt) (fun s => Border (SBox s)) ++ quad_fields "Padding" (VFloat) (fun s => Padding (SBox s)) ++
  quad_fields "Margin" (VFloat) (fun s => Margin (SBox s)) ++
  [($"styles:Width", fun s => VFloat (Width (SDim s))); ($"styles:Height", fun s => VFloat (Height (SDim s)));
   ($"styles:LineSpacing", fun s => VFloat (LineSpacing (SDim s))); ($"styles:OffsetX", fun s => VFloat (OffsetX (SDim s)));
   ($"styles:OffsetY", fun s => VFloat (OffsetY (SDim s))); ($"styles:ColumnWidth", fun s => VFloat (ColumnWidth s));
   ($"styles:HAlign", fun s => VStr (HAlign (SAlign s))); ($"styles:VAlign", fun s => VStr (VAlign (SAlign s)))] ++
  rgb_fields "Foreground" (fun s => Foreground (SColor s)) ++ rgb_fields "Text" (fun s => TextColor (SColor s)) ++
  rgb_fields "Background" (fun s => Background (SColor s)) ++ [($"styles:LineWidth", fun s => VFloat (LineWidth s))].
(** All floats in a style are neither NaN nor infinite. *)
Definition finite_styles (s : Styles F) : Prop := forall p get x, In (p, get) fields -> get s = VFloat x -> finite x = true.

(** How a value is shown: integers as floats, strings as valid UTF-8. *)
Definition show (v : gval F) : jval F :=
  match v with VStr s => JStr (encode (decode s)) | VFloat x => JNum x | VInt z => JNum (of_Z z) | VStruct _ => JObj [] end.
(** Two values differ, as they are shown: floats that are equal (as 0 and -0) do not. *)
Definition differ (a b : jval F) : Prop :=
  match a, b with JStr s, JStr t => s <> t | JNum x, JNum y => eqb x y = false | _, _ => True end.
(** A value is not the zero value of its type. *)
Definition not_zero (v : gval F) : Prop :=
  match v with VStr s => s <> [] | VFloat x => eqb zero x = false | VInt z => z <> 0%Z | VStruct _ => False end.

(** [ds] lists exactly the fields that differ between two styles, each once. *)
Definition lists_differences (org new : Styles F) (ds : list (diff F)) : Prop :=
  NoDup (map d_path ds) /\
  forall d, In d ds <-> exists get, In (d_path d, get) fields /\ differ (show (get org)) (show (get new)) /\
                        d_org d = Some (show (get org)) /\ d_mod d = show (get new).
(** [ds] lists exactly the fields that are not zero, each once. *)
Definition lists_changes (new : Styles F) (ds : list (diff F)) : Prop :=
  NoDup (map d_path ds) /\
  forall d, In d ds <-> exists get, In (d_path d, get) fields /\ not_zero (get new) /\
                        d_org d = Some (show (get (zero_styles F))) /\ d_mod d = show (get new).

(** ** Descriptions *)
Definition it_name (it : item F) : bytes := match it with mkItem n _ _ _ => n end.
Definition it_value (it : item F) : value F := match it with mkItem _ v _ _ => v end.
Definition it_diffs (it : item F) : list (diff F) := match it with mkItem _ _ d _ => d end.
Definition it_items (it : item F) : list (item F) := match it with mkItem _ _ _ l => l end.

(** Rows, cells, grid rows and grid parts are only shown where they belong. *)
Definition shown (i : instr F) : bool :=
  match i with ITableRow _ | ITableCell _ | IGridRow _ | IGridPart _ => false | _ => true end.
Definition children (i : instr F) : list (instr F) :=
  match i with
  | IBox _ iss | IText _ iss | ITableCell (XCell _ _ _ iss) | IGridPart (XGridPart _ _ iss) => filter shown iss
  | ITable (XTable _ _ rows) => map ITableRow rows
  | ITableRow (XRow _ cells) => map ITableCell cells
  | IGrid _ rows parts => map IGridRow rows ++ map IGridPart parts
  | _ => []
  end.
Definition label (i : instr F) : bytes :=
  match i with
  | IFont _ => $"font" | ILineFeed _ => $"line-feed" | ISetX _ => $"setx" | ISetY _ => $"sety" | IBox _ _ => $"box" | IText _ _ => $"text"
  | IImage _ _ => $"image" | ITextBlock _ => $"text-block" | IParagraph _ _ => $"paragraph" | ILineBreak => $"line-break"
  | IPageBreak => $"page-break" | ITable _ => $"table" | ITableRow _ => $"table-row"
  | ITableCell (XCell _ cs rs _) => $"table-cell colspan=" ++ itoa cs ++ $" rowspan=" ++ itoa rs
  | IGrid _ _ _ => $"grid" | IGridRow _ => $"grid-row" | IGridPart _ => $"grid-part"
  end.
Definition payload (i : instr F) : value F :=
  match i with
  | ILineFeed x | ISetX x | ISetY x => NumValue x
  | IParagraph _ t | ITextBlock t => StrValue (clear_str t)
  | IImage _ s => StrValue s
  | IGridRow r => StrValue (str_join ($" ") (gr_areas r))
  | IGridPart (XGridPart _ a _) => StrValue a
  | _ => NoValue
  end.
Definition style_attrs (i : instr F) : option (Styled F) :=
  match i with
  | IFont st | IBox st _ | IText st _ | IImage st _ | IParagraph st _ | ITable (XTable st _ _) | ITableRow (XRow st _)
  | ITableCell (XCell st _ _ _) | IGrid st _ _ | IGridRow (XGridRow st _) | IGridPart (XGridPart st _ _) => Some st
  | _ => None
  end.

Variable mutated : Styled F -> Styles F -> Styles F.
(** The zero style as the instruction changes it. *)
Definition changed (i : instr F) : Styles F :=
  match style_attrs i with Some st => mutated st (zero_styles F) | None => zero_styles F end.

(** Item [it] shows instruction [i] and everything in it. *)
Inductive mirrors : instr F -> item F -> Prop :=
| Mirrors i it : it_name it = label i -> it_value it = payload i ->
    (finite_styles (changed i) -> lists_changes (changed i) (it_diffs it)) ->
    Forall2 mirrors (children i) (it_items it) -> mirrors i it.

(** The value of the entry with a name, and the items of one. *)
Fixpoint entry (n : bytes) (l : list (item F)) : option (item F) :=
  match l with [] => None | it :: l' => if beqb (it_name it) n then Some it else entry n l' end.
Definition sub_items (n : bytes) (l : list (item F)) : list (item F) := match entry n l with Some it => it_items it | None => [] end.
Definition entry_value (n : bytes) (l : list (item F)) : option (value F) := option_map it_value (entry n l).
(** The margins in a description. *)
Definition margin_entry (n : bytes) (l : list (item F)) : option (value F) := entry_value n (sub_items ($"margins") (sub_items ($"page") l)).
End Spec.

(** Cleaned text: no line feed, no two spaces together, no space at either end. *)
Definition clean (s : bytes) : Prop :=
  ~ In lf s /\ (forall a b, s <> a ++ sp :: sp :: b) /\ (forall t, s <> sp :: t) /\ (forall t, s <> t ++ [sp]).
Definition letters (s : bytes) : bytes := filter (fun c => negb (Ascii.eqb c lf || Ascii.eqb c sp)) s.

(** binary64 numbers that are neither NaN nor infinite *)
Definition f64_finite (x : NumF64) : bool := match x : spec_float with S754_zero _ | S754_finite _ _ _ => true | _ => false end.
