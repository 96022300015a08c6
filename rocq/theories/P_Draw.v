(** Properties C42-C44 and C93: how a table is drawn.

    [renderTable env callback (XTable st rh xrows) s] draws the table with the rows [xrows], the
    style attributes [st] and [rh] repeated header rows in a state [s] of the Processor; the
    engine and the functions it calls back for headers and footers are arbitrary. *)
From Coq Require Import QArith Lia Permutation.
From Verif Require Import GoStr Num Style Class Instr Engine Layout Table Lines Proc RefEngine ProcView TableView TableWit DrawSpec DrawFacts DrawThms DrawWit AreaThms.
Local Open Scope nat_scope.

(** C42, C43: drawing a table runs a schedule (DrawSpec.v) that draws every row in order, each with
    its authored cells from left to right, and breaks the page exactly before the rows that do not
    fit; the cursor ends below the last row. *)
Theorem C42_schedule : forall (F : Num) (env : Env F) (eng : Engine F) (callback : cb -> M eng unit) st rh xrows (s s' : PS F eng),
  renderTable env callback (XTable st rh xrows) s = Ok tt s' ->
  exists h t s1, transformTable env st xrows s = (Some (h, t), s1) /\
    ((t_columnCount t = 0 /\ s' = snd (resetStyles s1)) \/
     (t_columnCount t <> 0 /\ exists before blocks s2 y',
        let '(_, _, _, bottom) := printableArea (ps_eng s1) in
        schedule env callback h (t_rows t) rh (fst (getXY (ps_eng s1))) (snd (getXY (ps_eng s1))) bottom before blocks s1 s2 y' /\
        s' = snd (resetStyles (snd (emit (SetY y') s2))))).
Proof. exact @renderTable_schedule. Qed.
Print Assumptions C42_schedule.
(** The [tallest] of the schedule is the height of the tallest cell, row spans included. *)
Theorem C42_tallest : forall (h : heap NumQ) (rows : list (trow NumQ)) i,
  (forall c, In c (cells rows i) -> (snd (cell_dim h c) <= tallest h rows i)%Q) /\ (0 <= tallest h rows i)%Q /\
  (tallest h rows i = @zero NumQ \/ exists c, In c (cells rows i) /\ tallest h rows i = snd (cell_dim h c)).
Proof. exact tallest_max. Qed.
Print Assumptions C42_tallest.
(** Header "h", then "a"; the row "b" does not fit, so the page is broken and "h" repeated. *)
Example C42_example : outline (ref_doc [] [] [ITable (XTable no_style 1 rows3)])
  = [None; Some ($"h"); Some ($"a"); None; Some ($"h"); Some ($"b")].
Proof. vm_compute. reflexivity. Qed.

(** C43: a table without boxes in its cells causes no page breaks but those of the schedule. *)
Theorem C43_page_breaks_partial : forall (F : Num) (env : Env F) (eng : Engine F) (depth : nat),
  (forall l, Permutation (e_shuffle env l) l) ->
  forall st rh xrows (s s' : PS F eng), boxless xrows ->
  renderTable env (callbacks env depth) (XTable st rh xrows) s = Ok tt s' ->
  exists h t s1 evs, transformTable env st xrows s = (Some (h, t), s1) /\ ps_trace s' = ps_trace s ++ evs /\
    ((t_columnCount t = 0 /\ pages evs = 0) \/
     (t_columnCount t <> 0 /\ exists before blocks s2 y',
        let '(_, _, _, bottom) := printableArea (ps_eng s1) in
        schedule env (callbacks env depth) h (t_rows t) rh (fst (getXY (ps_eng s1))) (snd (getXY (ps_eng s1))) bottom before blocks s1 s2 y' /\
        pages evs = breaks (before ++ List.concat blocks))).
Proof. exact @table_pages. Qed.
Print Assumptions C43_page_breaks_partial.
Example C43_example : boxless rows3 /\ pages (trace_of (ref_doc [] [] [ITable (XTable no_style 1 rows3)])) = 2.
Proof.
  split; [|vm_compute; reflexivity]. intros i x Hx. destruct i as [|[|[|i]]]; cbn in Hx; try contradiction; try (destruct Hx as [<-|[]]; reflexivity).
  destruct i; destruct Hx.
Qed.
(** Missing: a box in a cell breaks the page in the middle of a row that fits. *)
Theorem C43_box_refuted : exists xrow s s' h t s1,
  ref_render [xrow] s = Ok tt s' /\ transformTable (doc_env [] [] [] []) no_style [xrow] s = (Some (h, t), s1) /\
  List.length (t_rows t) = 1 /\
  (let '(_, _, _, bottom) := @printableArea NumQ RefEngine (ps_eng s1) in snd (@getXY NumQ RefEngine (ps_eng s1)) + tallest h (t_rows t) 0 <= bottom)%Q /\
  ps_trace s = [] /\ pages (ps_trace s') = 1.
Proof. exact break_in_row. Qed.
Print Assumptions C43_box_refuted.

(** C44 fails: after a page break and the repeated header rows it is not checked again whether the
    row fits. *)
Theorem C44_refuted : exists body s x y w v,
  ref_doc [] [] body = Ok None s /\ In (Simple (FillRect x y w v)) (flat (ps_trace s)) /\
  (let '(_, top, _, bottom) := @printableArea NumQ RefEngine (ps_eng s) in v <= bottom - top /\ bottom < y + v)%Q.
Proof. exact row_off_page. Qed.
Print Assumptions C44_refuted.
(** It holds for the rows that fit below the repeated header rows at the top of a page, on
    engines that put the cursor to a fixed height after a page break. *)
Theorem C44_fits_partial : forall (F : Num) (env : Env F) (eng : Engine F) (depth : nat),
  (forall l, Permutation (e_shuffle env l) l) ->
  forall h rows rh x0 y0 bottom top before blocks (s s' : PS F eng) y',
  schedule env (callbacks env depth) h rows rh x0 y0 bottom before blocks s s' y' ->
  ps_prevent s = false ->
  (forall s1 s2 : PS F eng, add_page (callbacks env depth) s1 = Ok tt s2 -> snd (getXY (ps_eng s2)) = top) ->
  forall i b p y, nth_error blocks i = Some b -> b = p ++ [Row i y] ->
  ltb bottom (add (fold_left (fun v k => add v (height rows k)) (headers rows rh i) top) (tallest h rows i)) = false ->
  ltb bottom (add y (tallest h rows i)) = false.
Proof. exact @fits. Qed.
Print Assumptions C44_fits_partial.
(** The reference engine is one of those engines. *)
Example C44_example : forall env depth (s s' : PS NumQ RefEngine),
  add_page (callbacks env depth) s = Ok tt s' -> snd (@getXY NumQ RefEngine (ps_eng s')) = 10%Q.
Proof. exact ref_top. Qed.

(** C93: the area of a cell is that of the rows and columns it spans. The height ... *)
Theorem C93_height : forall (F : Num) (env : Env F) (eng : Engine F) st xrows (s s' : PS F eng) h t,
  transformTable env st xrows s = (Some (h, t), s') ->
  forall i c, In c (cells (t_rows t) i) -> authored h c = true ->
  snd (cell_dim h c) =
    fold_left (fun v k => add v (height (t_rows t) k)) (seq (i + 1) (span (c_rowSpan (deref h c)) - 1)) (height (t_rows t) i).
Proof. exact @drawn_height. Qed.
Print Assumptions C93_height.
(** ... and the width, in rows no row span reaches and for cells of a single column. *)
Theorem C93_width : forall (F : Num) (env : Env F) (eng : Engine F) st xrows (s s' : PS F eng) h t,
  transformTable env st xrows s = (Some (h, t), s') ->
  forall i j c, cell_at (t_rows t) i j = Some c -> authored h c = true ->
  unreached xrows i \/ span (c_colSpan (deref h c)) = 1 ->
  fst (cell_dim h c) = fold_left (fun w p => add w (c_width (deref h p)))
    (firstn (span (c_colSpan (deref h c)) - 1) (skipn (j + 1) (cells (t_rows t) i))) (c_width (deref h c)).
Proof. exact @drawn_width. Qed.
Print Assumptions C93_width.
(** So the right edge of a cell is the left edge of the column behind its last one. *)
Theorem C93_right_edge : forall (env : Env NumQ) (eng : Engine NumQ) st xrows (s s' : PS NumQ eng) h t,
  transformTable env st xrows s = (Some (h, t), s') ->
  forall i j c (x0 : Q), cell_at (t_rows t) i j = Some c -> authored h c = true ->
  unreached xrows i \/ span (c_colSpan (deref h c)) = 1 ->
  ((left_edge h x0 (cells (t_rows t) i) j : Q) + fst (cell_dim h c) == left_edge h x0 (cells (t_rows t) i) (j + span (c_colSpan (deref h c))))%Q.
Proof. exact @right_edge. Qed.
Print Assumptions C93_right_edge.
(** A cell of two rows of heights 20 and 15 beside a cell of two columns of widths 30 and 50. *)
Example C93_example : match ref_table
    [xr [xcs 1 2 ($"a"); xcs 2 1 ($"b"); XCell (with_height_style 20) 1 1 []];
     xr [XCell (with_column_width 30) 1 1 []; XCell (with_column_width 50) 1 1 []]] with
  | (Some (h, t), _) => forallb (fun '((a, b), (c, d)) => (match d with Some v => Qeq_bool b v | None => true end && match c with Some v => Qeq_bool a v | None => true end)%bool)
      (combine (map (cell_dim h) (filter (authored h) (cells (t_rows t) 0))) [(None, Some (35#1)); (Some (80#1), Some (20#1)); (None, Some (20#1))]%Q) = true
  | _ => False end.
Proof. vm_compute. reflexivity. Qed.
