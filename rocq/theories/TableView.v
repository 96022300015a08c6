(** Readings of tables used in statements. *)
From Verif Require Import GoStr Num Style Class Instr Table.

Section View.
Context {F : Num}.
(** The cells of row [i], none if there is no such row. *)
Definition cells (rows : list (trow F)) (i : nat) : list cid :=
  match nth_error rows i with Some r => r_cells r | None => [] end.
(** The cell at row [i], column [j]. *)
Definition cell_at (rows : list (trow F)) (i j : nat) : option cid := nth_error (cells rows i) j.
(** A cell the author wrote, as opposed to the placeholders added by span processing. *)
Definition authored (h : heap F) (c : cid) : bool :=
  match c_spannedBy (deref h c) with Some _ => false | None => negb (c_zero (deref h c)) end.
(** What the author wrote: content and spans. *)
Definition content (x : tcell F) : list (instr F) * Z * Z := (c_iss x, c_colSpan x, c_rowSpan x).
Definition xcontent (x : xcell F) : list (instr F) * Z * Z :=
  match x with XCell _ cs rs iss => (iss, cs, rs) end.
Definition xcells (xrows : list (xrow F)) (i : nat) : list (xcell F) :=
  match nth_error xrows i with Some (XRow _ l) => l | None => [] end.
(** A span counts as 1 when below 1. *)
Definition span (n : Z) : nat := Z.to_nat (Z.max 1 n).
(** The columns and rows a cell of the document claims. *)
Definition xspans (x : xcell F) : nat * nat := match x with XCell _ cs rs _ => (span cs, span rs) end.
(** No cell of an earlier row claims row [i]. *)
Definition unreached (xrows : list (xrow F)) (i : nat) : Prop :=
  forall r x, In x (xcells xrows r) -> r < i -> r + snd (xspans x) <= i.
(** No cell spans both rows and columns, and the rows claimed by a row span hold plain cells only. *)
Definition simple_spans (xrows : list (xrow F)) : Prop :=
  (forall i x, In x (xcells xrows i) -> fst (xspans x) = 1 \/ snd (xspans x) = 1) /\
  (forall i x i' x', In x (xcells xrows i) -> In x' (xcells xrows i') -> i < i' < i + snd (xspans x) -> xspans x' = (1, 1)).
(** The table as it is after reading it in and processing its spans (table.go:292-329). *)
Definition spanned mut mut_sel (sty : Styles F) (xrows : list (xrow F)) : heap F * table F :=
  let '(h, t) := buildTable mut mut_sel sty xrows in processSpans t h.
(** The columns and rows covered by the area renderTable draws cell [c] in, table.go:102-112 and 356-360. *)
Definition covers (h : heap F) (c : cid) (i j : nat) : Prop :=
  let x := deref h c in
  c_rowIdx x <= i < c_rowIdx x + 1 + List.length (c_spansRows x) /\
  c_cellIdx x <= j < c_cellIdx x + 1 + List.length (c_spansCols x).
End View.
