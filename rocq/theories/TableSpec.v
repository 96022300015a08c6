(** Specification of table sizes: the requested column widths and the measured cells. *)
From Coq Require Import QArith.
From Verif Require Import GoStr Num Style Class Instr Engine Layout Table Lines Proc TableView.

(** [r] is the width requested for column [j]: the largest positive column-width of its cells,
    or 0 if none is positive. *)
Definition requested (h : heap NumQ) (rows : list (trow NumQ)) (j : nat) (r : Q) : Prop :=
  let cwidth c : Q := ColumnWidth (c_sty (deref h c)) in
  (forall i c, cell_at rows i j = Some c -> cwidth c <= r) /\
  ((0 < r /\ exists i c, cell_at rows i j = Some c /\ cwidth c = r) \/ r = 0).
Definition sumQ (l : list Q) : Q := fold_right Qplus 0 l.
(** The columns without a request. *)
Definition free_columns (req : list Q) : nat := List.length (filter (fun r => Qeq_bool r 0) req).

(** The width of a table asking for width [w]: [w] if it is between 0 and the printable width,
    else the printable width. *)
Definition table_width {eng : Engine NumQ} (w : Q) (s : PS NumQ eng) : Q :=
  let '(x0, _, x1, _) := printableArea (ps_eng s) in
  if Qle_bool 0 w && Qle_bool w (x1 - x0) then w else x1 - x0.

Section Measure.
Context {F : Num} (env : Env F) {eng : Engine F}.
Local Open Scope num_scope.
(** The room for the text of a cell: the width of its columns less the padding. *)
Definition text_room (h : heap F) (c : cid) : F :=
  let x := deref h c in
  fst (cell_dim h c) - (QLeft (Padding (SBox (c_sty x))) + QRight (Padding (SBox (c_sty x)))).
(** Measuring the texts of cells without a height of their own, one after the other. *)
Fixpoint measure (h : heap F) (cs : list cid) : St eng (list (cid * F)) :=
  match cs with
  | [] => sret []
  | c :: cs' =>
      let x := deref h c in
      if zero <? Height (SDim (c_sty x)) then measure h cs'
      else
        let! th := textHeightFnc (e_mut env) (e_hyph env) (c_sty x) (c_iss x) (text_room h c) (c_sty x) in
        let! rest := measure h cs' in
        sret ((c, th) :: rest)
  end.
End Measure.
