(** Model of table.go:57-238: tables, span processing, column widths. *)
From Verif Require Import GoStr Num Style Class Instr.
Local Open Scope num_scope.

Section Table.
Context {F : Num}.
Local Notation Styles := (Styles F).

(** The zero value of style.Styles. *)
Definition zero_styles : Styles :=
  mkStyles (mkFont [] zero [] [] [])
    (mkBox (mkQuad 0 0 0 0)%Z (mkQuad zero zero zero zero) (mkQuad zero zero zero zero))
    (mkDim zero zero zero zero zero) zero (mkAlign [] [])
    (mkColor (mkRGB 0 0 0) (mkRGB 0 0 0) (mkRGB 0 0 0)) zero.

(** A pointer to a tableCell. *)
Definition cid := nat.
(** table.go:84-100 *)
Record tcell := mkCell {
  c_sty : Styles; c_iss : list (instr F);
  c_colSpan : Z; c_rowSpan : Z; c_rowIdx : nat; c_cellIdx : nat;
  c_minHeight : F; c_height : F; c_width : F;
  c_spannedBy : option cid; c_spansCols : list cid; c_spansRows : list cid; c_zero : bool }.
(** table.go:65-71. Rows are only ever reached through table.rows, so a row is a value. *)
Record trow := mkTRow { r_sty : Styles; r_cells : list cid; r_height : F }.
(** table.go:57-63 *)
Record table := mkTable { t_sty : Styles; t_rows : list trow; t_columnCount : nat }.

(** The memory holding the cells. *)
Record heap := mkHeap { h_next : cid; h_cell : cid -> tcell }.
Definition deref (h : heap) (c : cid) : tcell := h_cell h c.
Definition store (c : cid) (x : tcell) (h : heap) : heap :=
  mkHeap (h_next h) (fun c' => if Nat.eqb c' c then x else h_cell h c').
Definition alloc (x : tcell) (h : heap) : cid * heap :=
  (h_next h, mkHeap (S (h_next h)) (fun c' => if Nat.eqb c' (h_next h) then x else h_cell h c')).

(** &tableCell{}, &tableCell{zero: true}, &tableCell{spannedBy: c} *)
Definition blank_cell : tcell := mkCell zero_styles [] 0%Z 0%Z 0 0 zero zero zero None [] [] false.
Definition zero_cell : tcell := mkCell zero_styles [] 0%Z 0%Z 0 0 zero zero zero None [] [] true.
Definition spanned_cell (c : cid) (rowSpan : Z) : tcell :=
  mkCell zero_styles [] 0%Z rowSpan 0 0 zero zero zero (Some c) [] [] false.

(** Assignments to single fields. *)
Definition with_spansCols (l : list cid) (x : tcell) : tcell :=
  mkCell (c_sty x) (c_iss x) (c_colSpan x) (c_rowSpan x) (c_rowIdx x) (c_cellIdx x) (c_minHeight x) (c_height x) (c_width x)
    (c_spannedBy x) l (c_spansRows x) (c_zero x).
Definition with_spansRows (l : list cid) (x : tcell) : tcell :=
  mkCell (c_sty x) (c_iss x) (c_colSpan x) (c_rowSpan x) (c_rowIdx x) (c_cellIdx x) (c_minHeight x) (c_height x) (c_width x)
    (c_spannedBy x) (c_spansCols x) l (c_zero x).
Definition with_idx (r c : nat) (x : tcell) : tcell :=
  mkCell (c_sty x) (c_iss x) (c_colSpan x) (c_rowSpan x) r c (c_minHeight x) (c_height x) (c_width x)
    (c_spannedBy x) (c_spansCols x) (c_spansRows x) (c_zero x).
Definition with_width (w : F) (x : tcell) : tcell :=
  mkCell (c_sty x) (c_iss x) (c_colSpan x) (c_rowSpan x) (c_rowIdx x) (c_cellIdx x) (c_minHeight x) (c_height x) w
    (c_spannedBy x) (c_spansCols x) (c_spansRows x) (c_zero x).
Definition with_height (v : F) (x : tcell) : tcell :=
  mkCell (c_sty x) (c_iss x) (c_colSpan x) (c_rowSpan x) (c_rowIdx x) (c_cellIdx x) (c_minHeight x) v (c_width x)
    (c_spannedBy x) (c_spansCols x) (c_spansRows x) (c_zero x).
Definition with_minHeight (v : F) (x : tcell) : tcell :=
  mkCell (c_sty x) (c_iss x) (c_colSpan x) (c_rowSpan x) (c_rowIdx x) (c_cellIdx x) v (c_height x) (c_width x)
    (c_spannedBy x) (c_spansCols x) (c_spansRows x) (c_zero x).
Definition update (c : cid) (f : tcell -> tcell) (h : heap) : heap := store c (f (deref h c)) h.
Definition with_cells (cells : list cid) (r : trow) : trow := mkTRow (r_sty r) cells (r_height r).
Definition with_row_height (v : F) (r : trow) : trow := mkTRow (r_sty r) (r_cells r) v.

(** ** processColumnSpans *)
(** table.go:180-187: [n] iterations *)
Fixpoint col_placeholders (n : nat) (cell : cid) (h : heap) : heap * list cid :=
  match n with
  | O => (h, [])
  | S n' =>
      let '(p, h) := alloc (spanned_cell cell (c_rowSpan (deref h cell))) h in          (* :181-184 *)
      let h := update cell (fun x => with_spansCols (c_spansCols x ++ [p]) x) h in      (* :186 *)
      let '(h, ps) := col_placeholders n' cell h in
      (h, p :: ps)                                                                      (* :185 *)
  end.
(** table.go:175-188 *)
Fixpoint col_span_cells (cells : list cid) (h : heap) : heap * list cid :=
  match cells with
  | [] => (h, [])
  | cell :: cells' =>
      let '(h, ps) :=
        if (c_colSpan (deref h cell) <=? 1)%Z then (h, [])                              (* :177-179 *)
        else col_placeholders (Z.to_nat (c_colSpan (deref h cell) - 1)) cell h in
      let '(h, rest) := col_span_cells cells' h in
      (h, cell :: ps ++ rest)
  end.
(** table.go:172-191 *)
Fixpoint processColumnSpans (rows : list trow) (h : heap) : heap * list trow :=
  match rows with
  | [] => (h, [])
  | row :: rows' =>
      let '(h, cells) := col_span_cells (r_cells row) h in
      let '(h, rest) := processColumnSpans rows' h in
      (h, with_cells cells row :: rest)
  end.

(** ** processRowSpans *)
(** table.go:213-217 and 158-162: append zero cells until there are [n] *)
Fixpoint zero_cells (n : nat) (h : heap) : heap * list cid :=
  match n with
  | O => (h, [])
  | S n' => let '(z, h) := alloc zero_cell h in let '(h, zs) := zero_cells n' h in (h, z :: zs)
  end.
Definition pad_cells (n : nat) (cells : list cid) (h : heap) : heap * list cid :=
  let '(h, zs) := zero_cells (n - List.length cells)%nat h in (h, cells ++ zs).

Fixpoint replace_nth {A} (i : nat) (x : A) (l : list A) : list A :=
  match l, i with
  | [], _ => []
  | _ :: l', O => x :: l'
  | y :: l', S i' => y :: replace_nth i' x l'
  end.
Definition empty_row : trow := mkTRow zero_styles [] zero.

(** table.go:203-229: the remaining [n] iterations, for the cell at column [ic]; [ri] is
    spannedRowIdx. After padding the slices at :225 and :227 are in range. *)
Fixpoint row_placeholders (n ic : nat) (cell : cid) (ri : nat) (rows : list trow) (h : heap) : heap * list trow :=
  match n with
  | O => (h, rows)
  | S n' =>
      let '(rows, i) := if (List.length rows <=? ri)%nat then (rows ++ [empty_row], List.length rows)   (* :207-209 *)
                        else (rows, ri) in                                                        (* :211 *)
      let row := nth i rows empty_row in
      let '(h, cells) := pad_cells ic (r_cells row) h in                                          (* :213-217 *)
      let '(p, h) := alloc (spanned_cell cell 0%Z) h in                                           (* :219-221 *)
      let h := update cell (fun x => with_spansRows (c_spansRows x ++ [p]) x) h in                (* :222 *)
      let cells := firstn ic cells ++ [p] ++ skipn ic cells in                                    (* :224-227 *)
      row_placeholders n' ic cell (S ri) (replace_nth i (with_cells cells row) rows) h            (* :228 *)
  end.
(** table.go:195-230: the loop over the cells of row [ir], which are not changed by it *)
Fixpoint row_span_cells (ir ic : nat) (cells : list cid) (rows : list trow) (h : heap) : heap * list trow :=
  match cells with
  | [] => (h, rows)
  | cell :: cells' =>
      let x := deref h cell in
      let '(h, rows) :=
        if (c_rowSpan x <=? 1)%Z then (h, rows)                                                   (* :196-198 *)
        else if (match c_spannedBy x with Some _ => true | None => false end) || c_zero x then (h, rows)   (* :199-201 *)
        else row_placeholders (Z.to_nat (c_rowSpan x - 1)) ic cell (ir + 1)%nat rows h in
      row_span_cells ir (S ic) cells' rows h
  end.
(** table.go:193-232: the range expression is evaluated once, so only the [n] rows present at
    the start are visited, each with the cells it has by then *)
Fixpoint row_span_rows (n ir : nat) (rows : list trow) (h : heap) : heap * list trow :=
  match n with
  | O => (h, rows)
  | S n' =>
      let '(h, rows) := row_span_cells ir 0 (r_cells (nth ir rows empty_row)) rows h in
      row_span_rows n' (S ir) rows h
  end.
Definition processRowSpans (rows : list trow) (h : heap) : heap * list trow :=
  row_span_rows (List.length rows) 0 rows h.

(** ** normalize *)
(** table.go:151-156 *)
Fixpoint max_cells (rows : list trow) (m : nat) : nat :=
  match rows with
  | [] => m
  | row :: rows' => max_cells rows' (if (m <? List.length (r_cells row))%nat then List.length (r_cells row) else m)
  end.
(** table.go:157-163 *)
Fixpoint pad_rows (n : nat) (rows : list trow) (h : heap) : heap * list trow :=
  match rows with
  | [] => (h, [])
  | row :: rows' =>
      let '(h, cells) := pad_cells n (r_cells row) h in
      let '(h, rest) := pad_rows n rows' h in
      (h, with_cells cells row :: rest)
  end.
(** table.go:165-168 *)
Fixpoint index_cells (ir ic : nat) (cells : list cid) (h : heap) : heap :=
  match cells with
  | [] => h
  | cell :: cells' => index_cells ir (S ic) cells' (update cell (with_idx ir ic) h)
  end.
(** table.go:164-169 *)
Fixpoint index_rows (ir : nat) (rows : list trow) (h : heap) : heap :=
  match rows with
  | [] => h
  | row :: rows' => index_rows (S ir) rows' (index_cells ir 0 (r_cells row) h)
  end.
(** table.go:150-170 *)
Definition normalize (t : table) (h : heap) : heap * table :=
  let n := max_cells (t_rows t) 0 in
  let '(h, rows) := pad_rows n (t_rows t) h in
  (index_rows 0 rows h, mkTable (t_sty t) rows n).

(** table.go:234-238 *)
Definition processSpans (t : table) (h : heap) : heap * table :=
  let '(h, rows) := processColumnSpans (t_rows t) h in
  let '(h, rows) := processRowSpans rows h in
  normalize (mkTable (t_sty t) rows (t_columnCount t)) h.

(** ** Column widths *)
(** table.go:120-124: the cells of one row; [None]: index out of range (:121) *)
Fixpoint max_widths (h : heap) (cells : list cid) (cws : list F) : option (list F) :=
  match cells, cws with
  | [], _ => Some cws
  | _ :: _, [] => None
  | cell :: cells', w :: cws' =>
      let cw := ColumnWidth (c_sty (deref h cell)) in
      match max_widths h cells' cws' with
      | Some r => Some ((if w <? cw then cw else w) :: r)
      | None => None
      end
  end.
(** table.go:119-125 *)
Fixpoint max_widths_rows (h : heap) (rows : list trow) (cws : list F) : option (list F) :=
  match rows with
  | [] => Some cws
  | row :: rows' => match max_widths h (r_cells row) cws with Some c => max_widths_rows h rows' c | None => None end
  end.
(** table.go:126-134 *)
Fixpoint space_used (cws : list F) (spaceUsed : F) (colsZero : Z) : F * Z :=
  match cws with
  | [] => (spaceUsed, colsZero)
  | cw :: cws' => if zero <? cw then space_used cws' (spaceUsed + cw) colsZero else space_used cws' spaceUsed (colsZero + 1)%Z
  end.
(** table.go:143-147; [None]: index out of range *)
Fixpoint set_widths (cells : list cid) (cws : list F) (h : heap) : option heap :=
  match cells, cws with
  | [], _ => Some h
  | _ :: _, [] => None
  | cell :: cells', w :: cws' => set_widths cells' cws' (update cell (with_width w) h)
  end.
Fixpoint set_widths_rows (rows : list trow) (cws : list F) (h : heap) : option heap :=
  match rows with
  | [] => Some h
  | row :: rows' => match set_widths (r_cells row) cws h with Some h => set_widths_rows rows' cws h | None => None end
  end.
(** table.go:116-148 *)
Definition assignColumnWidths (t : table) (width : F) (h : heap) : option heap :=
  match max_widths_rows h (t_rows t) (repeat zero (t_columnCount t)) with
  | None => None
  | Some cws =>
      let '(spaceUsed, colsZero) := space_used cws zero 0%Z in
      let cws :=
        if (0 <? colsZero)%Z then                                        (* :135-142 *)
          let cw := (width - spaceUsed) / of_Z colsZero in
          map (fun w => if w =? zero then cw else w) cws
        else cws in
      set_widths_rows (t_rows t) cws h
  end.

(** table.go:102-112 dim *)
Definition cell_dim (h : heap) (c : cid) : F * F :=
  let x := deref h c in
  (fold_left (fun w sc => w + c_width (deref h sc)) (c_spansCols x) (c_width x),
   fold_left (fun v sc => v + c_height (deref h sc)) (c_spansRows x) (c_height x)).
(** table.go:73-82 *)
Definition maxCellHeight (h : heap) (row : trow) : F :=
  fold_left (fun m c => let ch := snd (cell_dim h c) in if m <? ch then ch else m) (r_cells row) zero.

(** ** Building the table *)
Variable mut : Styled F -> Styles -> Styles.              (* MutatedStyles with the document's classes *)
Variable mut_sel : bytes -> Styled F -> Styles -> Styles. (* MutatedStylesWithSelector *)

(** table.go:308-326; [n] is len(xrow.Cells) *)
Fixpoint build_cells (rowSty : Styles) (n ic : nat) (xcells : list (xcell F)) (h : heap) : heap * list cid :=
  match xcells with
  | [] => (h, [])
  | XCell st colSpan rowSpan iss :: xcells' =>
      let cellSty :=
        if Nat.eqb ic 0 then mut_sel ($"first-cell") st rowSty
        else if Nat.eqb ic (n - 1)%nat then mut_sel ($"last-cell") st rowSty
        else mut st rowSty in
      let '(c, h) := alloc (mkCell cellSty iss colSpan rowSpan 0 0 zero zero zero None [] [] false) h in
      let '(h, rest) := build_cells rowSty n (S ic) xcells' h in
      (h, c :: rest)
  end.
(** table.go:295-328; [n] is len(xtab.Rows) *)
Fixpoint build_rows (tabSty : Styles) (n ir : nat) (xrows : list (xrow F)) (h : heap) : heap * list trow :=
  match xrows with
  | [] => (h, [])
  | XRow st xcells :: xrows' =>
      let rowSty :=
        if Nat.eqb ir 0 then mut_sel ($"first-row") st tabSty
        else if Nat.eqb ir (n - 1)%nat then mut_sel ($"last-row") st tabSty
        else mut st tabSty in
      let '(h, cells) := build_cells rowSty (List.length xcells) 0 xcells h in
      let '(h, rest) := build_rows tabSty n (S ir) xrows' h in
      (h, mkTRow rowSty cells zero :: rest)
  end.
Definition empty_heap : heap := mkHeap 0 (fun _ => blank_cell).
(** table.go:292-328 *)
Definition buildTable (tabSty : Styles) (xrows : list (xrow F)) : heap * table :=
  let '(h, rows) := build_rows tabSty (List.length xrows) 0 xrows empty_heap in
  (h, mkTable tabSty rows 0).
End Table.
Arguments tcell : clear implicits. Arguments trow : clear implicits. Arguments table : clear implicits.
Arguments heap : clear implicits.
