(** Specification for what the PDF engine paints (C94): the state of a PDF page description as far
    as the methods of gofpdf that are used change it. *)
From Verif Require Import GoStr Num Style Engine Fpdf LayoutSpec.

Section Canvas.
Context {F : Num}.
(** What was painted so far, the pen, the font (family, style letters, size) and the text colour *)
Record canvas := mkCanvas { cv_marks : list (painted F); cv_pen : pen (F:=F); cv_font : bytes * bytes * F; cv_text : RGB }.
Definition with_pen (p : pen) (c : canvas) : canvas := mkCanvas (cv_marks c) p (cv_font c) (cv_text c).
Definition with_mark (m : painted F) (c : canvas) : canvas := mkCanvas (cv_marks c ++ [m]) (cv_pen c) (cv_font c) (cv_text c).

(** The documentation of gofpdf, where [cv e] is the canvas in state [e]. *)
Record paints (pdf : Pdf F) (cv : pst F pdf -> canvas) : Prop := mkPaints {
  K_width : forall w e, let p := cv_pen (cv e) in
    cv (pdfSetLineWidth _ pdf w e) = with_pen (mkPen w (p_draw p) (p_fill p) (p_at p) (p_segs p)) (cv e);
  K_draw : forall r g b e, let p := cv_pen (cv e) in
    cv (pdfSetDrawColor _ pdf r g b e) = with_pen (mkPen (p_lw p) (mkRGB r g b) (p_fill p) (p_at p) (p_segs p)) (cv e);
  K_fill : forall r g b e, let p := cv_pen (cv e) in
    cv (pdfSetFillColor _ pdf r g b e) = with_pen (mkPen (p_lw p) (p_draw p) (mkRGB r g b) (p_at p) (p_segs p)) (cv e);
  (* Rect: "styleStr can be "F" for filled, "D" for outlined only, ..." *)
  K_rect : forall x y w h e, cv (rect _ pdf x y w h ($"F") e) = with_mark (Filled (p_fill (cv_pen (cv e))) x y w h) (cv e);
  K_move : forall x y e, let p := cv_pen (cv e) in
    cv (pdfMoveTo _ pdf x y e) = with_pen (mkPen (p_lw p) (p_draw p) (p_fill p) (x, y) (p_segs p)) (cv e);
  K_line : forall x y e, let p := cv_pen (cv e) in
    cv (pdfLineTo _ pdf x y e) = with_pen (mkPen (p_lw p) (p_draw p) (p_fill p) (x, y) (p_segs p ++ [(p_at p, (x, y))])) (cv e);
  (* DrawPath: "styleStr can be "F" for filled, "D" for outlined only, ..." *)
  K_path : forall e, let p := cv_pen (cv e) in
    cv (pdfDrawPath _ pdf ($"D") e) =
    with_pen (mkPen (p_lw p) (p_draw p) (p_fill p) (p_at p) []) (with_mark (Stroked (p_lw p) (p_draw p) (p_segs p)) (cv e));
  (* the size of an image is given in both directions *)
  K_image : forall src x y w h e, cv (imageOptions _ pdf src x y w h e) = with_mark (Placed src x y w h) (cv e);
  K_font : forall family letters size e,
    cv (setFont _ pdf family letters size e) = mkCanvas (cv_marks (cv e)) (cv_pen (cv e)) (family, letters, size) (cv_text (cv e));
  K_text : forall r g b e,
    cv (pdfSetTextColor _ pdf r g b e) = mkCanvas (cv_marks (cv e)) (cv_pen (cv e)) (cv_font (cv e)) (mkRGB r g b);
  (* the other methods paint nothing *)
  K_alias : forall a e, cv (aliasNbPages _ pdf a e) = cv e;
  K_header : forall e, cv (setHeaderFunc _ pdf e) = cv e;
  K_footer : forall e, cv (setFooterFunc _ pdf e) = cv e;
  K_x : forall x e, cv (pdfSetX _ pdf x e) = cv e;
  K_xy : forall x y e, cv (setXY _ pdf x y e) = cv e;
  K_ln : forall h e, cv (ln _ pdf h e) = cv e
}.
End Canvas.
Arguments canvas : clear implicits.
