(** Model of package xdoc: loading a document. *)
From Coq Require Import ZArith.
From Verif Require Import GoStr Utf8 Scan Num Style Class Instr Xml.

Section Load.
Variable F : Num.
(** strconv.ParseFloat and fmt's scanning of floats, as in [Style] *)
Variables parse_float convert_float : bytes -> option F.
(** The iteration order of the map in DecodeMutator, for the element at a position, the first or
    second time its attributes are decoded, and the n-th attribute; and for the class sheet. *)
Variable order : nat -> bool -> nat -> rawmap -> rawmap.
Variable sheet_order : nat -> rawmap -> rawmap.

Local Notation instr := (instr F).
Local Notation Styled := (Styled F).
Definition no_styles : Styled := mkStyled [] [].

(** xdoc/style.go:17-30 Styled.DecodeAttrs; appends to what is there *)
Definition decode_styled (pos : nat) (second : bool) (a : attrs) (st : Styled) : option Styled :=
  decode_attrs_go F parse_float convert_float (order pos second) 0 a st.

(** xdoc/table.go:31-45 Table.DecodeAttrs, the loop *)
Fixpoint repeat_header (a : attrs) (n : Z) : option Z :=
  match a with
  | [] => Some n
  | (k, v) :: a' =>
      if beqb k ($"repeatheader") then
        match parse_int v with
        | None => None                                                            (* :36-37 *)
        | Some m => if (m <? 0)%Z || (10 <? m)%Z then None else repeat_header a' m (* :38-41 *)
        end
      else repeat_header a' n
  end.
(** xdoc/table.go:47-65 TableCell.DecodeAttrs, the loop *)
Fixpoint decode_spans (a : attrs) (cs rs : Z) : option (Z * Z) :=
  match a with
  | [] => Some (cs, rs)
  | (k, v) :: a' =>
      if beqb k ($"colspan") then match parse_int v with None => None | Some m => decode_spans a' m rs end
      else if beqb k ($"rowspan") then match parse_int v with None => None | Some m => decode_spans a' cs m end
      else decode_spans a' cs rs
  end.
(** xdoc/grid.go:98-106 GridPart.DecodeAttrs, the loop *)
Fixpoint decode_area (a : attrs) (area : bytes) : bytes :=
  match a with [] => area | (k, v) :: a' => decode_area a' (if beqb k ($"area") then v else area) end.
(** read.go unmarshal, "Assign attributes", for the single field of LineFeed, SetX, SetY
    (xdoc/instructions.go:58-74) *)
Fixpoint float_attr (key : bytes) (a : attrs) (x : F) : option F :=
  match a with
  | [] => Some x
  | (k, v) :: a' =>
      if beqb k key then match float_value zero parse_float v with None => None | Some y => float_attr key a' y end
      else float_attr key a' x
  end.

(** xdoc/grid.go:30-50 Grid.Validate *)
Definition grid_valid (rows : list (xgridrow F)) (parts : list (xgridpart F)) : bool :=
  match rows with
  | [] => false
  | r0 :: _ =>
      forallb (fun r => Nat.eqb (List.length (gr_areas r)) (List.length (gr_areas r0))) rows &&
      forallb (fun p => match p with XGridPart _ area _ => existsb (fun r => existsb (beqb area) (gr_areas r)) rows end) parts
  end.

(** The contents of the elements that have no UnmarshalXML method. Font, Image and Paragraph
    have the embedded fields of Styled: elements named Mutators and Classes. A Mutator has no
    exported field, so it is empty. The second component collects character data. *)
Definition styled_field (pos : nat) (n : bytes) (a : attrs) (acc : Styled * bytes) : option (decoder -> res (Styled * bytes)) :=
  let '(st, t) := acc in
  if beqb n ($"Mutators") then Some (fun d => map_res (fun _ => (mkStyled (st_mutators st ++ [[]]) (st_classes st), t)) (skip d))
  else if beqb n ($"Classes") then Some (fun d => map_res (fun c => (mkStyled (st_mutators st) (st_classes st ++ [c]), t)) (string_value d))
  else None.
Definition styled_leaf (d : decoder) : res (Styled * bytes) :=
  fields_loop styled_field (fun t acc => (fst acc, snd acc ++ t)) (enough d) (no_styles, []) d.
(** LineFeed, SetX, SetY, LineBreak, PageBreak: no fields for elements *)
Definition plain_leaf (d : decoder) : res unit :=
  fields_loop (fun _ _ _ _ => None) (fun _ acc => acc) (enough d) tt d.

(** The UnmarshalXML methods; [decode] is registry.DecodeInstruction. *)
Section Methods.
Variable decode : nat -> bytes -> attrs -> decoder -> res instr.

Definition text_block (t : bytes) (iss : list instr) : list instr :=
  match t with [] => iss | _ => iss ++ [ITextBlock t] end.

(** xdoc/instructions.go:21-51 Instructions.UnmarshalXML, after the attributes. *)
Definition instructions_loop (name : bytes) (iss : list instr) (d : decoder) : res (list instr) :=
  token_loop name
    (fun pos n a acc d' => match decode pos n a d' with
                           | Got i d'' => Got (acc ++ [i]) d''                       (* :41 *)
                           | Fail d'' => Fail d''                                    (* :38-40 *)
                           | Fuel => Fuel
                           end)
    text_block (enough d) iss d.                                                     (* :42-48 *)
(** xdoc/table.go:67-89 Table.UnmarshalXML *)
Definition table_loop (name : bytes) (d : decoder) : res (list (xrow F)) :=
  token_loop name
    (fun pos n a acc d' => match decode pos n a d' with
                           | Got (ITableRow r) d'' => Got (acc ++ [r]) d''           (* :84-85 *)
                           | Got _ d'' => Got acc d''
                           | Fail d'' => Fail d''                                    (* :80-82 *)
                           | Fuel => Fuel
                           end)
    (fun _ acc => acc) (enough d) [] d.
(** xdoc/table.go:91-113 TableRow.UnmarshalXML *)
Definition row_loop (name : bytes) (d : decoder) : res (list (xcell F)) :=
  token_loop name
    (fun pos n a acc d' => match decode pos n a d' with
                           | Got (ITableCell c) d'' => Got (acc ++ [c]) d''          (* :108-109 *)
                           | Got _ d'' => Got acc d''
                           | Fail d'' => Fail d''                                    (* :104-106 *)
                           | Fuel => Fuel
                           end)
    (fun _ acc => acc) (enough d) [] d.
(** xdoc/table.go:115-141 TableCell.UnmarshalXML *)
Definition cell_loop (name : bytes) (d : decoder) : res (list instr) :=
  token_loop name
    (fun pos n a acc d' => match decode pos n a d' with
                           | Got i d'' => Got (acc ++ [i]) d''                       (* :131 *)
                           | Fail d'' => Got acc d''                                 (* :128-130 continue *)
                           | Fuel => Fuel
                           end)
    text_block (enough d) [] d.                                                      (* :132-138 *)
(** xdoc/grid.go:52-76 Grid.UnmarshalXML, before Validate *)
Definition grid_loop (name : bytes) (d : decoder) : res (list (xgridrow F) * list (xgridpart F)) :=
  token_loop name
    (fun pos n a acc d' => match decode pos n a d' with
                           | Got (IGridPart p) d'' => Got (fst acc, snd acc ++ [p]) d''   (* :69-70 *)
                           | Got (IGridRow r) d'' => Got (fst acc ++ [r], snd acc) d''    (* :71-72 *)
                           | Got _ d'' => Got acc d''
                           | Fail d'' => Got acc d''                                      (* :65-67 continue *)
                           | Fuel => Fuel
                           end)
    (fun _ acc => acc) (enough d) ([], []) d.
(** xdoc/grid.go:78-96 GridRow.UnmarshalXML; start elements are ignored. strings.Split never
    returns an empty slice, so :92 is never reached. *)
Definition gridrow_loop (name : bytes) (d : decoder) : res (list bytes) :=
  token_loop name (fun _ _ _ acc d' => Got acc d') (fun t _ => split_byte sp t) (enough d) [] d.
(** xdoc/grid.go:108-127 GridPart.UnmarshalXML; character data is ignored *)
Definition part_loop (name : bytes) (d : decoder) : res (list instr) :=
  token_loop name
    (fun pos n a acc d' => match decode pos n a d' with
                           | Got i d'' => Got (acc ++ [i]) d''                       (* :124 *)
                           | Fail d'' => Got acc d''                                 (* :121-123 continue *)
                           | Fuel => Fuel
                           end)
    (fun _ acc => acc) (enough d) [] d.

(** Instructions.UnmarshalXML for <name a> at [pos]: attributes, then contents. *)
Definition unmarshal_instructions (pos : nat) (name : bytes) (a : attrs) (d : decoder) : res (list instr) :=
  match decode_styled pos false a no_styles with
  | None => Fail d                                                                   (* :22-25 *)
  | Some _ => instructions_loop name [] d
  end.
(** Grid.UnmarshalXML with Validate, xdoc/grid.go:61 *)
Definition unmarshal_grid (name : bytes) (d : decoder) : res (list (xgridrow F) * list (xgridpart F)) :=
  match grid_loop name d with
  | Got (rows, parts) d' => if grid_valid rows parts then Got (rows, parts) d' else Fail d'
  | r => r
  end.

(** DecodeElement succeeded with [x]; DecodeAttrs yields the instruction or fails. *)
Definition with_attrs {A} (r : res A) (f : A -> option instr) : res instr :=
  match r with
  | Got x d => match f x with Some i => Got i d | None => Fail d end
  | Fail d => Fail d
  | Fuel => Fuel
  end.
Definition styled_as (pos : nat) (a : attrs) (st : Styled) (f : Styled -> instr) : option instr :=
  option_map f (decode_styled pos true a st).

(** xdoc/registry.go:68-86 DecodeInstruction for the start element <name a> just read. The
    registered names: xdoc/registry.go:14-34 with the XMLName tags of the types. *)
Definition decode_registered (pos : nat) (name : bytes) (a : attrs) (d : decoder) : res instr :=
  let styled := styled_as pos a in
  if beqb name ($"font") then with_attrs (styled_leaf d) (fun '(st, _) => styled st IFont)
  else if beqb name ($"box") then
    with_attrs (unmarshal_interface (unmarshal_instructions pos name a) d) (fun iss => styled no_styles (fun st => IBox st iss))
  else if beqb name ($"text") then
    with_attrs (unmarshal_interface (unmarshal_instructions pos name a) d) (fun iss => styled no_styles (fun st => IText st iss))
  else if beqb name ($"lf") then
    match float_attr ($"lines") a zero with None => Fail d | Some x => with_attrs (plain_leaf d) (fun _ => Some (ILineFeed x)) end
  else if beqb name ($"setx") then
    match float_attr ($"x") a zero with None => Fail d | Some x => with_attrs (plain_leaf d) (fun _ => Some (ISetX x)) end
  else if beqb name ($"sety") then
    match float_attr ($"y") a zero with None => Fail d | Some x => with_attrs (plain_leaf d) (fun _ => Some (ISetY x)) end
  else if beqb name ($"image") then with_attrs (styled_leaf d) (fun '(st, t) => styled st (fun st' => IImage st' t))
  else if beqb name ($"table") then
    with_attrs (unmarshal_interface (table_loop name) d)
      (fun rows => match repeat_header a 0 with None => None | Some n => styled no_styles (fun st => ITable (XTable st n rows)) end)
  else if beqb name ($"tr") then
    with_attrs (unmarshal_interface (row_loop name) d) (fun cells => styled no_styles (fun st => ITableRow (XRow st cells)))
  else if beqb name ($"td") then
    with_attrs (unmarshal_interface (cell_loop name) d)
      (fun iss => match decode_spans a 0 0 with None => None | Some (cs, rs) => styled no_styles (fun st => ITableCell (XCell st cs rs iss)) end)
  else if beqb name ($"grid") then
    with_attrs (unmarshal_interface (unmarshal_grid name) d) (fun '(rows, parts) => styled no_styles (fun st => IGrid st rows parts))
  else if beqb name ($"gr") then
    with_attrs (unmarshal_interface (gridrow_loop name) d) (fun areas => styled no_styles (fun st => IGridRow (XGridRow st areas)))
  else if beqb name ($"part") then
    with_attrs (unmarshal_interface (part_loop name) d) (fun iss => styled no_styles (fun st => IGridPart (XGridPart st (decode_area a []) iss)))
  else if beqb name ($"p") then with_attrs (styled_leaf d) (fun '(st, t) => styled st (fun st' => IParagraph st' t))
  else if beqb name ($"br") then with_attrs (plain_leaf d) (fun _ => Some ILineBreak)
  else if beqb name ($"newpage") then with_attrs (plain_leaf d) (fun _ => Some IPageBreak)
  else Fail d.                                                                        (* :69-72 *)
End Methods.

(** The recursion of DecodeInstruction through the UnmarshalXML methods; [depth] bounds the
    nesting. *)
Fixpoint decode_instruction (depth : nat) (pos : nat) (name : bytes) (a : attrs) (d : decoder) : res instr :=
  match depth with
  | O => Fuel
  | S depth' => decode_registered (decode_instruction depth') pos name a d
  end.

(** ** xdoc/doc.go *)
(** xdoc/doc.go:63-83 *)
Record Meta := mkMeta { m_author : bytes; m_creator : bytes; m_subject : bytes }.
Record Page := mkPage { p_orientation : bytes; p_format : bytes; p_margins : Quad F }.
(** xdoc/doc.go:52-61. Of the Styled of header, footer and body nothing is ever used; it is
    left out. *)
Record Document := mkDoc {
  doc_meta : Meta; doc_page : Page; doc_style : bytes;
  doc_header : list instr; doc_footer : list instr; doc_body : list instr }.

Definition string_field {A} (set : bytes -> A) (d : decoder) : res A := map_res set (string_value d).
Definition float_field {A} (set : F -> A) (d : decoder) : res A :=
  match string_value d with
  | Got v d' => match float_value zero parse_float v with Some x => Got (set x) d' | None => Fail d' end
  | Fail d' => Fail d'
  | Fuel => Fuel
  end.
(** Structs without character data *)
Definition struct {A} (field : nat -> bytes -> attrs -> A -> option (decoder -> res A)) (acc : A) (d : decoder) : res A :=
  fields_loop field (fun _ acc => acc) (enough d) acc d.
Definition meta_field (pos : nat) (n : bytes) (a : attrs) (m : Meta) : option (decoder -> res Meta) :=
  if beqb n ($"author") then Some (string_field (fun v => mkMeta v (m_creator m) (m_subject m)))
  else if beqb n ($"creator") then Some (string_field (fun v => mkMeta (m_author m) v (m_subject m)))
  else if beqb n ($"subject") then Some (string_field (fun v => mkMeta (m_author m) (m_creator m) v))
  else None.
Definition margins_field (pos : nat) (n : bytes) (a : attrs) (q : Quad F) : option (decoder -> res (Quad F)) :=
  if beqb n ($"left") then Some (float_field (fun v => mkQuad v (QTop q) (QRight q) (QBottom q)))
  else if beqb n ($"top") then Some (float_field (fun v => mkQuad (QLeft q) v (QRight q) (QBottom q)))
  else if beqb n ($"right") then Some (float_field (fun v => mkQuad (QLeft q) (QTop q) v (QBottom q)))
  else if beqb n ($"bottom") then Some (float_field (fun v => mkQuad (QLeft q) (QTop q) (QRight q) v))
  else None.
Definition page_field (pos : nat) (n : bytes) (a : attrs) (p : Page) : option (decoder -> res Page) :=
  if beqb n ($"orientation") then Some (string_field (fun v => mkPage v (p_format p) (p_margins p)))
  else if beqb n ($"format") then Some (string_field (fun v => mkPage (p_orientation p) v (p_margins p)))
  else if beqb n ($"margins") then
    Some (fun d => map_res (fun q => mkPage (p_orientation p) (p_format p) q) (struct margins_field (p_margins p) d))
  else None.
(** Header, Footer, Body: Instructions.UnmarshalXML into the same value each time *)
Definition section_field (depth pos : nat) (n : bytes) (a : attrs) (iss : list instr) (d : decoder) : res (list instr) :=
  unmarshal_interface (fun d' =>
    match decode_styled pos false a no_styles with
    | None => Fail d'
    | Some _ => instructions_loop (decode_instruction depth) n iss d'
    end) d.
Definition document_field (depth : nat) (pos : nat) (n : bytes) (a : attrs) (x : Document) : option (decoder -> res Document) :=
  let '(mkDoc m p s h f b) := x in
  if beqb n ($"meta") then Some (fun d => map_res (fun m' => mkDoc m' p s h f b) (struct meta_field m d))
  else if beqb n ($"page") then Some (fun d => map_res (fun p' => mkDoc m p' s h f b) (struct page_field p d))
  else if beqb n ($"style") then Some (string_field (fun v => mkDoc m p v h f b))
  else if beqb n ($"header") then Some (fun d => map_res (fun h' => mkDoc m p s h' f b) (section_field depth pos n a h d))
  else if beqb n ($"footer") then Some (fun d => map_res (fun f' => mkDoc m p s h f' b) (section_field depth pos n a f d))
  else if beqb n ($"body") then Some (fun d => map_res (fun b' => mkDoc m p s h f b') (section_field depth pos n a b d))
  else None.
Definition empty_document : Document :=
  mkDoc (mkMeta [] [] []) (mkPage [] [] (mkQuad zero zero zero zero)) [] [] [] [].
(** read.go unmarshal: find the start element; then the document *)
Fixpoint find_start (fuel : nat) (d : decoder) : res bytes :=
  match fuel with
  | O => Fuel
  | S fuel' => match next d with
               | (None, d') => Fail d'
               | (Some (TStart _ n _), d') => Got n d'
               | (Some _, d') => find_start fuel' d'
               end
  end.
Definition decode_document (toks : list token) : res Document :=
  let d := mkDec toks [] in
  match find_start (enough d) d with
  | Got n d' => if beqb n ($"document") then struct (document_field (enough d)) empty_document d' else Fail d'
  | Fail d' => Fail d'
  | Fuel => Fuel
  end.

(** xdoc/doc.go:13-24 Load. The reader is given by its tokens. *)
Inductive lres := LOk (doc : Document) (cs : Classes F) | LErr | LPanic | LFuel.
Definition load (toks : list token) : lres :=
  match decode_document toks with
  | Got doc _ =>
      match decode_classes F parse_float convert_float sheet_order (doc_style doc) with
      | COk cs => LOk doc cs
      | CErr => LErr
      | CPanic => LPanic
      | CFuel => LFuel
      end
  | Fail _ => LErr
  | Fuel => LFuel
  end.
End Load.
