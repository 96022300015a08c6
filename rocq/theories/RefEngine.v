(** A small concrete engine over the rationals, modelled on gofpdf, for examples and
    refutations. Pages are 100 x 100 with margins of 10; a character is 1 wide and a line as
    high as the font's point size. AddPage ends the page with the footer callback and begins
    the next one with the header callback; WriteText breaks the page by itself when the line
    does not fit, except inside a callback. *)
From Coq Require Import QArith.
From Verif Require Import GoStr Num Style Engine.
Local Open Scope Q_scope.

Record RS := mkRS { r_page : Z; r_x : Q; r_y : Q; r_font : Font NumQ; r_busy : bool; r_err : option bytes }.
Definition r_at (x y : Q) (e : RS) : RS := mkRS (r_page e) x y (r_font e) (r_busy e) (r_err e).
Definition r_set_font (f : Font NumQ) (e : RS) : RS := mkRS (r_page e) (r_x e) (r_y e) f (r_busy e) (r_err e).
Definition r_set_busy (b : bool) (e : RS) : RS := mkRS (r_page e) (r_x e) (r_y e) (r_font e) b (r_err e).
Definition r_next_page (e : RS) : RS := mkRS (r_page e + 1) 10 10 (r_font e) (r_busy e) (r_err e).

Definition r_simple (c : scmd NumQ) (e : RS) : RS :=
  match c with
  | SetX x => r_at x (r_y e) e
  | SetY y => r_at (r_x e) y e
  | LineFeed n => r_at 10 (Qred (r_y e + n * PointSize (r_font e))) e
  | ChangeFont f => r_set_font f e
  | MoveTo x y | LineTo x y => r_at x y e
  | _ => e
  end.
Definition r_add_page (k : RS -> RS) (e : RS) : eprog RS :=
  let begin e1 := ECall Header (r_set_busy true (r_next_page e1))
                    (fun e2 => EDone (k (r_set_font (r_font e) (r_set_busy (r_busy e) e2)))) in
  if (r_page e =? 0)%Z then begin e
  else ECall Footer (r_set_busy true (r_at 10 90 e)) (fun e1 => begin e1).
Definition r_put (s : bytes) (e : RS) : RS := r_at (Qred (r_x e + inject_Z (Z.of_nat (List.length s)))) (r_y e) e.
Definition r_write (s : bytes) (e : RS) : eprog RS :=
  if negb (r_busy e) && negb (Qle_bool (r_y e + PointSize (r_font e)) 90) then
    r_add_page (fun e' => r_put s (r_at (r_x e) (r_y e') e')) e
  else EDone (r_put s e).

Definition RefEngine : Engine NumQ := mkEngine NumQ RS
  (fun e => (r_x e, r_y e))                                  (* GetXY *)
  (fun _ => (10, 10, 90, 90))                                (* PrintableArea *)
  (fun _ => 100) (fun _ => 100)                              (* PageWidth, PageHeight *)
  (fun _ => (10, 10, 10, 10))                                (* Margins *)
  (fun e => PointSize (r_font e))                            (* FontHeight *)
  (fun _ s => inject_Z (Z.of_nat (List.length s)))           (* TextWidth *)
  r_page r_err r_simple                                      (* CurrentPage, Error *)
  (r_add_page (fun e => e)) r_write
  (fun e => ECall Footer (r_set_busy true e) (fun e' => EDone (r_set_busy false e')))
  r_err.
Definition ref_font : Font NumQ := mkFont ($"Arial") 12 ($"normal") ($"normal") ($"normal").
Definition ref_start : est RefEngine := mkRS 0 0 0 ref_font false None.
