(** How gofpdf prints (C98), from its documentation: the width of a text depends on the font set
    by SetFont, and Write prints at the current position and advances, as long as the text ends
    left of the right margin and contains no line feed. Printing may break the page: the header and
    footer functions run meanwhile, and the position on the line is kept. This is about fonts
    that the library has and whose family and size are given (for an empty family or size 0
    SetFont keeps the current one), and as long as no error has occurred: after an error gofpdf
    ignores all calls. *)
From Coq Require Import QArith.
From Verif Require Import GoStr Num Style Engine Font Fpdf FpdfSpec PlaceSpec.
Local Open Scope Q_scope.

Record gofpdf_prints (pdf : Pdf NumQ) (tw : bytes -> bytes -> Q -> bytes -> Q) (right : Q) : Prop := mkPrints {
  G_width : forall family style size e t, getStringWidth _ pdf (setFont _ pdf family style size e) t = tw family style size t;
  G_write : forall h t e e', one_line t -> getX _ pdf e + getStringWidth _ pdf e t <= right -> ends (write _ pdf h t e) e' ->
    getX _ pdf e' == getX _ pdf e + getStringWidth _ pdf e t
}.
(** The width of a text in a font of a document. *)
Definition pdf_width (tw : bytes -> bytes -> Q -> bytes -> Q) (f : Font NumQ) (t : bytes) : Q :=
  tw (Family f) (fpdf_font_style (FStyle f) (Weight f) (Decoration f)) (PointSize f) t.
(** Font sizes are given in points, of which 72 are 25.4 mm. *)
Definition gofpdf_sizes (pdf : Pdf NumQ) : Prop :=
  forall family style size e, snd (getFontSize _ pdf (setFont _ pdf family style size e)) = size * (127 # 360).
Definition pdf_height (f : Font NumQ) : Q := PointSize f * (127 # 360).
