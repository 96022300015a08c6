(** The texts that describe a table for debugging (table.go:11-55). *)
From Coq Require Import ZArith Floats.SpecFloat.
From Verif Require Import GoStr GoFmt Num Style Class Instr Layout Table.

Section Dump.
Context {F : Num}.
Definition itoa_nat (n : nat) : bytes := itoa (Z.of_nat n).

(** table.go:21-36, the text of one cell *)
Definition dumpCellSpans (h : heap F) (c : cid) : bytes :=
  let cell := deref h c in
  let head := $"[" ++ itoa_nat (c_rowIdx cell) ++ $":" ++ itoa_nat (c_cellIdx cell) in
  let spans := itoa (c_colSpan cell) ++ $":" ++ itoa (c_rowSpan cell) ++ $"]" in
  if c_zero cell then head ++ $"-zero-cell]"                                             (* :22-23 *)
  else match c_spannedBy cell with
  | Some o => head ++ $"-byspn:" ++ itoa_nat (c_rowIdx (deref h o)) ++ $":" ++ itoa_nat (c_cellIdx (deref h o)) ++ $"]"
  | None =>
      match c_spansCols cell, c_spansRows cell with
      | _ :: _, _ :: _ => head ++ $"-spans:" ++ spans                                    (* :26-27 *)
      | _ :: _, [] => head ++ $"-colsp:" ++ spans                                        (* :28-29 *)
      | [], _ :: _ => head ++ $"-rowsp:" ++ spans                                        (* :30-31 *)
      | [], [] => head ++ $"-regl-cell]"                                                 (* :32-33 *)
      end
  end.
(** table.go:19-37 *)
Definition dumpRowSpans (h : heap F) (row : trow F) : bytes := str_join ($", ") (map (dumpCellSpans h) (r_cells row)).
(** table.go:11-17 *)
Definition dumpTableSpans (h : heap F) (t : table F) : bytes := str_join [lf] (map (dumpRowSpans h) (t_rows t)).
End Dump.

(** [n / d] rounded to the nearest integer, ties to even ([n], [d] positive). *)
Definition round_even (n d : Z) : Z :=
  let q := (n / d)%Z in
  match (2 * (n mod d) ?= d)%Z with Lt => q | Gt => q + 1 | Eq => if Z.even q then q else q + 1 end%Z.
(** fmt's %.1f of a float64: one digit after the point, the exact value rounded to even. *)
Definition fixed1 (x : NumF64) : bytes :=
  let show (neg : bool) (t : Z) := (if neg then $"-" else []) ++ itoa (t / 10) ++ $"." ++ itoa (t mod 10) in
  match x with
  | S754_nan => $"NaN"
  | S754_infinity s => if s then $"-Inf" else $"+Inf"
  | S754_zero s => show s 0%Z
  | S754_finite s m e => show s (if (0 <=? e)%Z then Zpos m * 2 ^ e * 10 else round_even (Zpos m * 10) (2 ^ (- e)))%Z
  end.
(** table.go:49-54 *)
Definition dumpCellDims (h : heap NumF64) (c : cid) : bytes :=
  let cell := deref h c in
  $"[" ++ itoa_nat (c_rowIdx cell) ++ $":" ++ itoa_nat (c_cellIdx cell) ++ $":w=" ++ fixed1 (c_width cell) ++
  $":h=" ++ fixed1 (c_height cell) ++ $":mh=" ++ fixed1 (c_minHeight cell) ++ $"]".
(** table.go:47-53 *)
Definition dumpRowDims (h : heap NumF64) (row : trow NumF64) : bytes := str_join ($", ") (map (dumpCellDims h) (r_cells row)).
(** table.go:39-45 *)
Definition dumpTableDims (h : heap NumF64) (t : table NumF64) : bytes := str_join [lf] (map (dumpRowDims h) (t_rows t)).
(** dim.go:13-15 *)
Definition area_String (pa : PrintableArea NumF64) : bytes :=
  $"x0=" ++ fixed1 (pa_x0 pa) ++ $", y0=" ++ fixed1 (pa_y0 pa) ++ $", x1=" ++ fixed1 (pa_x1 pa) ++ $", y1=" ++ fixed1 (pa_y1 pa).
