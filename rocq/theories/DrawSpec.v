(** Specification of drawing a table: a schedule of page breaks and rows. *)
From Verif Require Import GoStr Num Style Class Instr Engine Layout Table Lines Proc TableView.
Local Open Scope num_scope.

Section Draw.
Context {F : Num} (env : Env F) {eng : Engine F} (callback : cb -> M eng unit).

Fixpoint each {A} (f : A -> M eng unit) (l : list A) : M eng unit :=
  match l with [] => ret tt | a :: l' => f a ;; each f l' end.
(** The left edge of column [j]: the widths of the columns before it, added to the table's left edge. *)
Definition left_edge (h : heap F) (x0 : F) (row : list cid) (j : nat) : F :=
  fold_left (fun x c => x + c_width (deref h c)) (firstn j row) x0.
(** Draw the authored cells of a row from left to right, each in its area. *)
Definition draw_row (h : heap F) (x0 y : F) (row : list cid) : M eng unit :=
  each (fun jc => let '(j, c) := jc in
          let x := left_edge h x0 row j in
          let '(w, v) := cell_dim h c in
          renderCell env callback (mkPA x y (x + w) (y + v)) (deref h c))
       (filter (fun jc => authored h (snd jc)) (combine (seq 0 (List.length row)) row)) ;;
  lift (emit (SetX x0)).

(** A page break, or row [i] drawn with its top at [y]. *)
Inductive step := Break | Row (i : nat) (y : F).
Definition run_step (h : heap F) (rows : list (trow F)) (x0 : F) (st : step) : M eng unit :=
  match st with
  | Break => add_page callback
  | Row i y => draw_row h x0 y (cells rows i)
  end.
Definition run (h : heap F) (rows : list (trow F)) (x0 : F) : list step -> M eng unit := each (run_step h rows x0).

Definition height (rows : list (trow F)) (i : nat) : F :=
  match nth_error rows i with Some row => r_height row | None => zero end.
(** The height of the tallest cell of row [i], row spans included. *)
Definition tallest (h : heap F) (rows : list (trow F)) (i : nat) : F :=
  fold_left (fun m c => if m <? snd (cell_dim h c) then snd (cell_dim h c) else m) (cells rows i) zero.
(** Where the next row goes after the steps [a], when they were started at [y0] and the state is [s] now. *)
Definition next_y (rows : list (trow F)) (y0 : F) (a : list step) (s : PS F eng) : F :=
  match rev a with
  | [] => y0
  | Break :: _ => snd (getXY (ps_eng s))
  | Row k yk :: _ => yk + height rows k
  end.
(** The rows repeated after a page break before row [i]. *)
Definition headers (rows : list (trow F)) (repeat : Z) (i : nat) : list nat :=
  if (0 <? i)%nat then seq 0 (Nat.min (Z.to_nat repeat) (List.length rows)) else [].
Definition is_row (i : nat) (st : step) : Prop := exists y, st = Row i y.

(** The schedule [before ++ List.concat blocks], with one block for each row, as run from state [s]
    with the cursor at [y0] to state [s'] with the cursor to be set to [y']. *)
Record schedule (h : heap F) (rows : list (trow F)) (repeat : Z) (x0 y0 bottom : F)
    (before : list step) (blocks : list (list step)) (s s' : PS F eng) (y' : F) : Prop := mkSchedule {
  (* it can be run *)
  D_run : run h rows x0 (before ++ List.concat blocks) s = Ok tt s';
  (* the first page break: when the header rows and the row after them do not fit *)
  D_before : before = if negb (ps_prevent s) &&
      (bottom <? y0 + fold_left (fun v i => v + tallest h rows i) (seq 0 (Nat.min (Z.to_nat (repeat + 1)) (List.length rows))) zero)
      then [Break] else [];
  (* row i is drawn by block i, alone or after a page break and the repeated header rows *)
  D_count : List.length blocks = List.length rows;
  D_block : forall i b, nth_error blocks i = Some b -> exists y,
      b = [Row i y] \/ exists hs, b = Break :: hs ++ [Row i y] /\ Forall2 is_row (headers rows repeat i) hs;
  (* the page breaks: exactly before the rows that do not fit *)
  D_break : forall i b s1, nth_error blocks i = Some b -> run h rows x0 (before ++ List.concat (firstn i blocks)) s = Ok tt s1 ->
      (In Break b <-> ps_prevent s1 = false /\ (bottom <? next_y rows y0 (before ++ List.concat (firstn i blocks)) s1 + tallest h rows i) = true);
  (* every row starts where the one before it ended, or where the cursor is after a page break *)
  D_y : forall a i y b s1, before ++ List.concat blocks = a ++ Row i y :: b -> run h rows x0 a s = Ok tt s1 -> y = next_y rows y0 a s1;
  D_end : y' = next_y rows y0 (before ++ List.concat blocks) s'
}.
End Draw.
Arguments step : clear implicits.

(** Page breaks asked for by a list of engine calls, those made inside callbacks not counted. *)
Definition is_page {F : Num} (e : event F) : bool := match ev_cmd e with AddPage => true | _ => false end.
Definition pages {F : Num} (evs : list (event F)) : nat := List.length (filter is_page evs).
Definition is_break {F : Num} (st : step F) : bool := match st with Break => true | _ => false end.
Definition breaks {F : Num} (l : list (step F)) : nat := List.length (filter is_break l).
Definition is_box {F : Num} (i : instr F) : bool := match i with IBox _ _ => true | _ => false end.
(** No cell of the table holds a box. *)
Definition boxless {F : Num} (xrows : list (xrow F)) : Prop :=
  forall i x, In x (xcells xrows i) -> existsb is_box (fst (fst (xcontent x))) = false.
