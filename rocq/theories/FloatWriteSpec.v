(** Engines that measure by the font and move the cursor down in binary64 (C52). *)
From Coq Require Import ZArith Reals List Floats.SpecFloat.
From Verif Require Import GoStr Num Style Class Instr Engine Layout Lines LinesSpec WriteSpec FloatSpec.
From Coq Require Import Rdefinitions.
Local Open Scope R_scope.

(** Widths and heights of texts are those of the current font; a line feed moves the cursor down by
    the height of the font times the number of lines, adding with rounding (fpdf.go:LineFeed on gofpdf,
    [f.y += h]); nothing else moves it up or down. *)
Record float_printer (eng : Engine NumF64) (tw : Font NumF64 -> bytes -> NumF64) (fh : Font NumF64 -> NumF64) (font : est eng -> Font NumF64) : Prop := mkFloatPrinter {
  FP_width : forall (e : est eng) s, textWidth e s = tw (font e) s;
  FP_height : forall (e : est eng), fontHeight e = fh (font e);
  FP_set : forall f e, font (simple (ChangeFont f) e) = f /\ getXY (simple (ChangeFont f) e) = getXY e;
  FP_color : forall r g b (e : est eng), font (simple (SetTextColor r g b) e) = font e /\ getXY (simple (SetTextColor r g b) e) = getXY e;
  FP_x : forall x (e : est eng), font (simple (SetX x) e) = font e /\ snd (getXY (simple (SetX x) e)) = snd (getXY e);
  FP_feed : forall n (e : est eng), font (simple (LineFeed n) e) = font e /\
    (0 <= fval (mul (fontHeight e) n) -> snd (getXY (simple (LineFeed n) e)) = add (snd (getXY e)) (mul (fontHeight e) n));
  FP_write : forall s (e : est eng), exists e', Engine.writeText s e = EDone e' /\ font e' = font e /\ snd (getXY e') = snd (getXY e);
  FP_page : forall e : est eng, (forall f, currentPage (simple (ChangeFont f) e) = currentPage e) /\
    (forall r g b, currentPage (simple (SetTextColor r g b) e) = currentPage e)
}.
(** How far measuring and writing [n] lines may differ: about [2 ^ -50] of the heights per line. *)
Definition height_error (n : nat) (y h l : R) : R := INR (n + 8) * / 2 ^ 50 * (y + INR (n + 1) * (h * l) + h) + / 2 ^ 1000.
