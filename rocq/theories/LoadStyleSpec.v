(** Specification of the styles and the shape of loaded documents (C87, C88). *)
From Verif Require Import GoStr Num Style Class Instr Xml Load LoadSpec.

Section Parts.
Context {F : Num}.
(** [part_of i j]: instruction [j] is [i] or lies inside it, at any depth. *)
Inductive part_of : instr F -> instr F -> Prop :=
| In_self i : part_of i i
| In_box st iss i j : In i iss -> part_of i j -> part_of (IBox st iss) j
| In_text st iss i j : In i iss -> part_of i j -> part_of (IText st iss) j
| In_table st n rows r j : In r rows -> part_of (ITableRow r) j -> part_of (ITable (XTable st n rows)) j
| In_row st cells c j : In c cells -> part_of (ITableCell c) j -> part_of (ITableRow (XRow st cells)) j
| In_cell st cs rs iss i j : In i iss -> part_of i j -> part_of (ITableCell (XCell st cs rs iss)) j
| In_gridrow st rows parts r j : In r rows -> part_of (IGridRow r) j -> part_of (IGrid st rows parts) j
| In_gridpart st rows parts p j : In p parts -> part_of (IGridPart p) j -> part_of (IGrid st rows parts) j
| In_part st area iss i j : In i iss -> part_of i j -> part_of (IGridPart (XGridPart st area iss)) j.
(** The styles of an element itself. *)
Definition styles_of (i : instr F) : option (Styled F) :=
  match i with
  | IFont st | IBox st _ | IText st _ | IImage st _ | IParagraph st _ | IGrid st _ _ => Some st
  | ITable (XTable st _ _) | ITableRow (XRow st _) | ITableCell (XCell st _ _ _) | IGridPart (XGridPart st _ _) => Some st
  | IGridRow r => Some (gr_styled r)
  | _ => None
  end.
(** The instructions of a document. *)
Definition instructions (doc : Document F) : list (instr F) := doc_header F doc ++ doc_footer F doc ++ doc_body F doc.
Definition inside_doc (doc : Document F) (j : instr F) : Prop := exists i, In i (instructions doc) /\ part_of i j.
End Parts.
