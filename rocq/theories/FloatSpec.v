(** binary64 numbers as real numbers. *)
From Coq Require Import ZArith Reals List Floats.SpecFloat.
From Flocq Require Import Core.Core IEEE754.BinarySingleNaN.
From Verif Require Import GoStr Num Style Class Instr Engine Layout Table Lines Proc TableView.
From Coq Require Import Rdefinitions.

(** The value of a float64. *)
Definition fval (x : NumF64) : R := SF2R radix2 x.
(** It is a number, neither an infinity nor NaN ([valid_binary]: the mantissa has 53 bits). *)
Definition fin (x : NumF64) : Prop := valid_binary prec64 emax64 x = true /\ is_finite_SF x = true.
(** Positive and between [2 ^ -200] and [2 ^ 200], so that nothing overflows or underflows. *)
Definition ordinary (x : NumF64) : Prop := fin x /\ (/ 2 ^ 200 <= fval x <= 2 ^ 200)%R.
(** At most [2 ^ 200] in size. *)
Definition moderate (x : NumF64) : Prop := fin x /\ (Rabs (fval x) <= 2 ^ 200)%R.
Local Open Scope R_scope.
(** [a] is [b] up to the relative error [eps]. *)
Definition rel_err (eps a b : R) : Prop := Rabs (a - b) <= eps * Rabs b.

(** The size asked for, as in LayoutSpec.v, computed with a relative error of [2 ^ -48] (25.4 mm
    are 96 pixels). *)
Definition requested_float (wpx hpx : Z) (width height wr hr : R) : Prop :=
  (0 < width -> 0 < height -> wr = width /\ hr = height) /\
  (width <= 0 -> 0 < height -> hr = height /\ rel_err (/ 2 ^ 48) wr (height * IZR wpx / IZR hpx)) /\
  (0 < width -> height <= 0 -> wr = width /\ rel_err (/ 2 ^ 48) hr (width * IZR hpx / IZR wpx)) /\
  (width <= 0 -> height <= 0 -> rel_err (/ 2 ^ 48) wr (IZR wpx * 254 / 960) /\ rel_err (/ 2 ^ 48) hr (IZR hpx * 254 / 960)).
(** An image of [wr] x [hr] in a space of [pw] x [ph]: it fits, without any error; it keeps its
    proportions up to a relative error of [2 ^ -48]; it is not enlarged, and reduced only as far
    as needed. *)
Definition fitted_float (wr hr pw ph w h : R) : Prop :=
  w <= pw /\ h <= ph /\
  exists k, 0 < k <= 1 /\ rel_err (/ 2 ^ 48) w (k * wr) /\ rel_err (/ 2 ^ 48) h (k * hr) /\
    (w = wr /\ h = hr \/ w = pw \/ h = ph).

(** Tables. The sum of a list. *)
Definition sumR (l : list R) : R := fold_right Rplus 0%R l.
Definition free_columns_f (req : list R) : nat := List.length (filter (fun r => Req_bool r 0%R) req).
(** How far columns may miss the width [W] of the table if [req] are the requested widths: about
    [2 ^ -52] of the width per column. *)
Definition column_error (W : R) (req : list R) : R := ((INR (List.length req) + 3) * / 2 ^ 52 * (Rabs W + sumR req) + / 2 ^ 1000)%R.
(** [r] is the width requested for column [j]: the largest positive column-width of its cells,
    or 0 if none is positive. *)
Definition requested_f (h : heap NumF64) (rows : list (trow NumF64)) (j : nat) (r : R) : Prop :=
  let cwidth c : R := fval (ColumnWidth (c_sty (deref h c))) in
  (forall i c, cell_at rows i j = Some c -> (cwidth c <= r)%R) /\
  ((0 < r)%R /\ (exists i c, cell_at rows i j = Some c /\ cwidth c = r) \/ r = 0%R).
(** The width of a table asking for width [w]: [w] if it is between 0 and the printable width,
    else the printable width. *)
Definition table_width_f {eng : Engine NumF64} (w : NumF64) (s : PS NumF64 eng) : NumF64 :=
  let '(x0, _, x1, _) := printableArea (ps_eng s) in
  if Num.leb zero w && Num.leb w (sub x1 x0) then w else sub x1 x0.
Definition printable_width {eng : Engine NumF64} (s : PS NumF64 eng) : NumF64 :=
  let '(x0, _, x1, _) := printableArea (ps_eng s) in sub x1 x0.

(** The number of lines of a text. *)
Definition measured_lines {eng : Engine NumF64} mut hyph iss (width : NumF64) sty (s : PS NumF64 eng) : nat :=
  let s1 := snd (emit (ChangeFont (SFont sty)) s) in
  List.length (fst ((if beqb (HAlign (SAlign sty)) ($"block") then textLinesHyphenated mut hyph else textLines mut) iss width sty s1)).
