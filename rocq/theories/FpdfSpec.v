(** Specification for the PDF engine (C91, C92): what the documentation of gofpdf says about the
    methods that are used. *)
From Verif Require Import GoStr Num Style Engine Fpdf ProcSpec.

Record gofpdf_laws {F : Num} (pdf : Pdf F) : Prop := mkGofpdf {
  (* SetX: "If the passed value is negative, it is relative to the right of the page." *)
  G_x : forall x e, from_edge x -> getX _ pdf (pdfSetX _ pdf x e) = x;
  G_x_y : forall x e, getY _ pdf (pdfSetX _ pdf x e) = getY _ pdf e;
  (* SetXY: "If the passed values are negative, they are relative respectively to the right and
     bottom of the page." *)
  G_xy_x : forall x y e, from_edge x -> getX _ pdf (setXY _ pdf x y e) = x;
  G_xy_y : forall x y e, from_edge y -> getY _ pdf (setXY _ pdf x y e) = y;
  (* Ln: "The current abscissa goes back to the left margin and the ordinate increases by the
     amount passed in parameter. A negative value of h indicates the height of the last printed
     cell." *)
  G_ln_x : forall h e, getX _ pdf (ln _ pdf h e) = (let '(l, _, _, _) := getMargins _ pdf e in l);
  G_ln_y : forall h e, from_edge h -> getY _ pdf (ln _ pdf h e) = add (getY _ pdf e) h;
  (* fonts and colours do not move the cursor *)
  G_font : forall family style size e, let e' := setFont _ pdf family style size e in
    getX _ pdf e' = getX _ pdf e /\ getY _ pdf e' = getY _ pdf e /\ pageNo _ pdf e' = pageNo _ pdf e;
  G_color : forall r g b e, let e' := pdfSetTextColor _ pdf r g b e in
    getX _ pdf e' = getX _ pdf e /\ getY _ pdf e' = getY _ pdf e
}.
