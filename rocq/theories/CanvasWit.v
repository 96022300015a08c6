(** A small library with a canvas (C94). *)
From Coq Require Import QArith.
From Verif Require Import GoStr Num Style Engine Fpdf LayoutSpec CanvasSpec.
Local Open Scope Q_scope.
Record PaintState := mkPaint { q_x : Q; q_y : Q; q_canvas : canvas NumQ }.
Definition q_on (f : canvas NumQ -> canvas NumQ) (e : PaintState) : PaintState := mkPaint (q_x e) (q_y e) (f (q_canvas e)).
Definition q_move (x y : Q) (e : PaintState) : PaintState := mkPaint x y (q_canvas e).
Definition q_pen (f : pen (F:=NumQ) -> pen (F:=NumQ)) : PaintState -> PaintState := q_on (fun c => with_pen (f (cv_pen c)) c).
Definition PaintPdf : Pdf NumQ := mkPdf NumQ PaintState q_x q_y (fun _ => 1%Z) (fun _ => (10, 10, 10, 10)) (fun _ => (210, 297))
  (fun _ => (12, 4)) (fun _ s => inject_Z (Z.of_nat (List.length s))) (fun _ => None)
  (fun _ e => e) (fun e => e) (fun e => e)
  (fun x e => q_move x (q_y e) e) q_move (fun h e => q_move 10 (q_y e + h) e)
  (fun family letters size => q_on (fun c => mkCanvas (cv_marks c) (cv_pen c) (family, letters, size : NumQ) (cv_text c)))
  (fun src x y w h => q_on (with_mark (Placed src (x : NumQ) y w h)))
  (fun r g b => q_on (fun c => mkCanvas (cv_marks c) (cv_pen c) (cv_font c) (mkRGB r g b)))
  (fun w => q_pen (fun p => mkPen (w : NumQ) (p_draw p) (p_fill p) (p_at p) (p_segs p)))
  (fun r g b => q_pen (fun p => mkPen (p_lw p) (mkRGB r g b) (p_fill p) (p_at p) (p_segs p)))
  (fun r g b => q_pen (fun p => mkPen (p_lw p) (p_draw p) (mkRGB r g b) (p_at p) (p_segs p)))
  (fun x y w h st => q_on (fun c => if beqb st ($"F") then with_mark (Filled (p_fill (cv_pen c)) (x : NumQ) y w h) c else c))
  (fun x y e => q_move x y (q_pen (fun p => mkPen (p_lw p) (p_draw p) (p_fill p) (x, y) (p_segs p)) e))
  (fun x y e => q_move x y (q_pen (fun p => mkPen (p_lw p) (p_draw p) (p_fill p) (x, y) (p_segs p ++ [(p_at p, (x, y))])) e))
  (fun st => q_on (fun c => let p := cv_pen c in
     with_pen (mkPen (p_lw p) (p_draw p) (p_fill p) (p_at p) [])
       (if beqb st ($"D") then with_mark (Stroked (p_lw p) (p_draw p) (p_segs p)) c else c)))
  EDone (fun _ _ e => EDone e) EDone (fun _ => None).
Lemma paint_pdf : paints PaintPdf q_canvas.
Proof. constructor; reflexivity. Qed.
Definition blank : PaintState :=
  mkPaint 10 10 (mkCanvas [] (mkPen (F:=NumQ) 1 (mkRGB 0 0 0) (mkRGB 0 0 0) (0, 0) []) ([], [], 0 : NumQ) (mkRGB 0 0 0)).
(** A style with lines of width 2 above and below *)
Definition lined : Styles NumQ :=
  mkStyles (mkFont [] 12 [] [] []) (mkBox (mkQuad 0 1 0 2)%Z (mkQuad 0 0 0 0) (mkQuad 0 0 0 0)) (mkDim (-(1)) (-(1)) 1 0 0) (-(1))
    (mkAlign [] []) (mkColor (mkRGB 1 2 3) (mkRGB 0 0 0) (mkRGB 4 5 6))%Z 2.
