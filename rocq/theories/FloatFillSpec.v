(** Justified lines in binary64 (C50): engines that count in floats, and filled lines. *)
From Coq Require Import ZArith Reals List Floats.SpecFloat.
From Verif Require Import GoStr Num Style Class Instr Engine Layout Lines LinesSpec WriteSpec FloatSpec.
From Coq Require Import Rdefinitions.
Local Open Scope R_scope.

(** An engine that measures by the font and moves the cursor right by the width of what it writes,
    adding with rounding (gofpdf does: [f.x += w]). *)
Record float_writer (eng : Engine NumF64) (tw : Font NumF64 -> bytes -> NumF64) (font : est eng -> Font NumF64) : Prop := mkFloatWriter {
  FW_width : forall (e : est eng) s, textWidth e s = tw (font e) s;
  FW_set : forall f e, font (simple (ChangeFont f) e) = f /\ getXY (simple (ChangeFont f) e) = getXY e;
  FW_color : forall r g b (e : est eng), getXY (simple (SetTextColor r g b) e) = getXY e /\ currentPage (simple (SetTextColor r g b) e) = currentPage e;
  FW_x : forall x (e : est eng), 0 <= fval x -> fst (getXY (simple (SetX x) e)) = x;
  FW_write : forall s (e : est eng), exists e', Engine.writeText s e = EDone e' /\ fst (getXY e') = add (fst (getXY e)) (tw (font e) s);
  FW_page : page_stable (eng:=eng)
}.
(** The width of a word without spaces. *)
Definition word_width_f (tw : Font NumF64 -> bytes -> NumF64) (it : textItem NumF64) : NumF64 := tw (SFont (i_sty it)) (trim is_sp (i_text it)).
(** Every word is followed by the same gap: [xs] is where the next one begins. *)
Fixpoint evenly_f (tw : Font NumF64 -> bytes -> NumF64) (gap x : NumF64) (items : list (textItem NumF64)) (xs : list NumF64) : Prop :=
  match items, xs with
  | [], [] => True
  | it :: items', x' :: xs' => x' = add (add x (word_width_f tw it)) gap /\ evenly_f tw gap x' items' xs'
  | _, _ => False
  end.
(** How far a line of [n] words of total width [S] may miss the width [W]: about [2 ^ -50] of its
    size per word. *)
Definition fill_error (n : nat) (W S : R) : R := INR (n + 4) * / 2 ^ 50 * (Rabs W + S + 1).
(** A stretched line: equal gaps between the words; widths and gaps add up to the width less 0.1, but for rounding. *)
Definition filled_float (tw : Font NumF64 -> bytes -> NumF64) (width : NumF64) (sty : Styles NumF64) (x : NumF64) (line : textLine NumF64) (cmds : list (cmd NumF64)) : Prop :=
  let items := l_items line in let n := List.length items in let S := sumR (map (fun it => fval (word_width_f tw it)) items) in
  stretched line = true -> (Z.of_nat n <= 2 ^ 20)%Z -> (forall it, In it items -> moderate (word_width_f tw it) /\ 0 <= fval (word_width_f tw it)) ->
  exists gap xs, cmds = Simple (F:=NumF64) (SetX (F:=NumF64) x) :: moved_items (F:=NumF64) items xs ++ [line_end (F:=NumF64) sty] /\
    (0 <= fval x -> Forall (fun x' => 0 <= fval x') xs -> evenly_f tw gap x items xs) /\
    fin gap /\ Rabs (S + INR (n - 1) * fval gap - (fval width - / 10)) <= fill_error n (fval width) S.
