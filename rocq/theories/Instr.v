(** Model of the document types of package xdoc (after decoding). *)
From Verif Require Import GoStr Style Class.

Section Instr.
Variable F : Type.   (* float64 *)

(** xdoc/instructions.go:53-114, xdoc/table.go:10-29, xdoc/grid.go:10-28: the types that
    implement Instruction. XMLName is left out. Box, Text, TableCell and GridPart embed both
    Styled and Instructions (which embeds another Styled); method promotion selects the
    outer one, so only that one is kept. *)
Record xgridrow := XGridRow { gr_styled : Styled F; gr_areas : list bytes }.
Inductive instr :=
| IFont (st : Styled F)
| ILineFeed (lines : F)
| ISetX (x : F)
| ISetY (y : F)
| IBox (st : Styled F) (iss : list instr)
| IText (st : Styled F) (iss : list instr)
| IImage (st : Styled F) (source : bytes)
| ITextBlock (text : bytes)
| IParagraph (st : Styled F) (text : bytes)
| ILineBreak
| IPageBreak
| ITable (t : xtable)
| ITableRow (r : xrow)
| ITableCell (c : xcell)
| IGrid (st : Styled F) (rows : list xgridrow) (parts : list xgridpart)
| IGridRow (r : xgridrow)
| IGridPart (p : xgridpart)
with xtable := XTable (st : Styled F) (repeatHeader : Z) (rows : list xrow)
with xrow := XRow (st : Styled F) (cells : list xcell)
with xcell := XCell (st : Styled F) (colSpan rowSpan : Z) (iss : list instr)
with xgridpart := XGridPart (st : Styled F) (area : bytes) (iss : list instr).
End Instr.
Arguments IFont {F}. Arguments ILineFeed {F}. Arguments ISetX {F}. Arguments ISetY {F}. Arguments IBox {F}.
Arguments IText {F}. Arguments IImage {F}. Arguments ITextBlock {F}. Arguments IParagraph {F}.
Arguments ILineBreak {F}. Arguments IPageBreak {F}. Arguments ITable {F}. Arguments ITableRow {F}.
Arguments ITableCell {F}. Arguments IGrid {F}. Arguments IGridRow {F}. Arguments IGridPart {F}.
Arguments XTable {F}. Arguments XRow {F}. Arguments XCell {F}. Arguments XGridRow {F}. Arguments XGridPart {F}.
Arguments gr_styled {F}. Arguments gr_areas {F}.
