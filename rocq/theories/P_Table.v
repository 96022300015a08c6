(** Properties C32-C41 and C76: what a table is turned into before it is drawn.

    [transformTable env st xrows s] reads the table with the rows [xrows] and the style
    attributes [st] in a state [s] of the Processor, on any engine. *)
From Coq Require Import QArith Lia.
From Verif Require Import GoStr Num Style Class Instr Engine Layout Table Lines Proc RefEngine ProcView TableView TableSpec TableThms SizeThms TableWit.
Local Open Scope nat_scope.

(** A table with a column span, a row span and rows of different lengths. *)
Definition sample : list (xrow NumQ) :=
  [xr [xcs 2 1 ($"a"); xc ($"b")]; xr [xcs 1 2 ($"c"); xc ($"d")]; xr [xc ($"e")]].

(** C32 *)
Theorem C32_total : forall (F : Num) (env : Env F) (eng : Engine F) st xrows (s : PS F eng),
  exists h t, fst (transformTable env st xrows s) = Some (h, t).
Proof. exact @no_panic. Qed.
Print Assumptions C32_total.
Theorem C32_rectangular : forall (F : Num) (env : Env F) (eng : Engine F) st xrows (s s' : PS F eng) h t,
  transformTable env st xrows s = (Some (h, t), s') ->
  (forall i, i < List.length (t_rows t) -> List.length (cells (t_rows t) i) = t_columnCount t) /\
  (forall i j c, cell_at (t_rows t) i j = Some c -> c_rowIdx (deref h c) = i /\ c_cellIdx (deref h c) = j).
Proof. exact @rectangle. Qed.
Print Assumptions C32_rectangular.
(** No wider than necessary: the last column holds an authored cell or a placeholder of one. *)
Theorem C32_tight : forall (F : Num) (env : Env F) (eng : Engine F) st xrows (s s' : PS F eng) h t,
  transformTable env st xrows s = (Some (h, t), s') ->
  t_columnCount t = 0 \/ exists i c, cell_at (t_rows t) i (t_columnCount t - 1) = Some c /\ c_zero (deref h c) = false.
Proof. exact @tight. Qed.
Print Assumptions C32_tight.
Example C32_example : match ref_table sample with
  | (Some (h, t), _) => (t_columnCount t, map (fun r => List.length (r_cells r)) (t_rows t)) = (3, [3; 3; 3])
  | _ => False end.
Proof. vm_compute. reflexivity. Qed.

(** C33 *)
Theorem C33_cells_kept : forall (F : Num) (env : Env F) (eng : Engine F) st xrows (s s' : PS F eng) h t,
  transformTable env st xrows s = (Some (h, t), s') ->
  forall i, map (fun c => content (deref h c)) (filter (authored h) (cells (t_rows t) i)) = map xcontent (xcells xrows i).
Proof. exact @keeps_cells. Qed.
Print Assumptions C33_cells_kept.
(** What is added carries neither content nor style. *)
Theorem C33_added_blank : forall (F : Num) (env : Env F) (eng : Engine F) st xrows (s s' : PS F eng) h t,
  transformTable env st xrows s = (Some (h, t), s') ->
  forall i c, In c (cells (t_rows t) i) -> authored h c = false -> c_iss (deref h c) = [] /\ c_sty (deref h c) = zero_styles.
Proof. exact @blank_fill. Qed.
Print Assumptions C33_added_blank.
Example C33_example : match ref_table sample with
  | (Some (h, t), _) => map (fun i => List.length (filter (authored h) (cells (t_rows t) i))) [0; 1; 2] = [2; 2; 1] /\
      map (fun i => List.length (cells (t_rows t) i)) [0; 1; 2] = [3; 3; 3]
  | _ => False end.
Proof. vm_compute. split; reflexivity. Qed.

(** C34 *)
Theorem C34_owned : forall (F : Num) (env : Env F) (eng : Engine F) st xrows (s s' : PS F eng) h t,
  transformTable env st xrows s = (Some (h, t), s') ->
  forall i c, In c (cells (t_rows t) i) -> authored h c = true ->
  let x := deref h c in
  List.length (c_spansCols x) = span (c_colSpan x) - 1 /\ List.length (c_spansRows x) = span (c_rowSpan x) - 1 /\
  NoDup (c_spansCols x ++ c_spansRows x) /\
  (forall p, In p (c_spansCols x) -> In p (cells (t_rows t) i) /\ c_spannedBy (deref h p) = Some c) /\
  (forall n p, nth_error (c_spansRows x) n = Some p -> In p (cells (t_rows t) (i + 1 + n)) /\ c_spannedBy (deref h p) = Some c).
Proof. exact @owned. Qed.
Print Assumptions C34_owned.
Theorem C34_owner : forall (F : Num) (env : Env F) (eng : Engine F) st xrows (s s' : PS F eng) h t,
  transformTable env st xrows s = (Some (h, t), s') ->
  forall i p, In p (cells (t_rows t) i) ->
  match c_spannedBy (deref h p) with
  | None => True
  | Some c => authored h c = true /\
      ((In c (cells (t_rows t) i) /\ In p (c_spansCols (deref h c))) \/
       (exists r n, In c (cells (t_rows t) r) /\ nth_error (c_spansRows (deref h c)) n = Some p /\ i = r + 1 + n))
  end.
Proof. exact @owner. Qed.
Print Assumptions C34_owner.
(** As many rows as needed: the number of rows is the least that holds all rows and spans. *)
Theorem C34_row_count : forall (F : Num) (env : Env F) (eng : Engine F) st xrows (s s' : PS F eng) h t,
  transformTable env st xrows s = (Some (h, t), s') ->
  forall m, List.length (t_rows t) <= m <->
    List.length xrows <= m /\ forall i x, In x (xcells xrows i) -> i + snd (xspans x) <= m.
Proof. exact @row_count. Qed.
Print Assumptions C34_row_count.
(** Column placeholders come after their owner and before the next authored cell. *)
Theorem C34_order : forall (F : Num) (env : Env F) (eng : Engine F) st xrows (s s' : PS F eng) h t,
  transformTable env st xrows s = (Some (h, t), s') ->
  forall i, filter (fun p => authored h p || existsb (fun c => existsb (Nat.eqb p) (c_spansCols (deref h c))) (filter (authored h) (cells (t_rows t) i))) (cells (t_rows t) i)
    = flat_map (fun c => c :: c_spansCols (deref h c)) (filter (authored h) (cells (t_rows t) i)).
Proof. exact @column_order. Qed.
Print Assumptions C34_order.
Example C34_example : match ref_table [xr [xcs 3 3 ($"a")]] with
  | (Some (h, t), _) => map (map (fun c => c_spannedBy (deref h c))) (map r_cells (t_rows t)) =
      [[None; Some 0; Some 0]; [Some 0; None; None]; [Some 0; None; None]]
  | _ => False end.
Proof. vm_compute. reflexivity. Qed.

(** C35, for every row that no row span from above reaches; in a table without row spans that is every row. *)
Theorem C35_tiling : forall (F : Num) (env : Env F) (eng : Engine F) st xrows (s s' : PS F eng) h t,
  transformTable env st xrows s = (Some (h, t), s') ->
  forall i k c, unreached xrows i -> nth_error (filter (authored h) (cells (t_rows t) i)) k = Some c ->
  c_cellIdx (deref h c) = list_sum (map (fun x => fst (xspans x)) (firstn k (xcells xrows i))) /\
  forall n, n < span (c_colSpan (deref h c)) - 1 ->
    exists p, cell_at (t_rows t) i (c_cellIdx (deref h c) + 1 + n) = Some p /\ nth_error (c_spansCols (deref h c)) n = Some p.
Proof. exact @tile. Qed.
Print Assumptions C35_tiling.
Example C35_example : match ref_table [xr [xcs 2 1 ($"a"); xc ($"b"); xcs 3 1 ($"c"); xc ($"d")]] with
  | (Some (h, t), _) => map (fun c => c_cellIdx (deref h c)) (filter (authored h) (cells (t_rows t) 0)) = [0; 2; 3; 6]
  | _ => False end.
Proof. vm_compute. reflexivity. Qed.
Example C35_hypothesis : unreached sample 0 /\ unreached sample 1 /\ unreached [xr [xcs 2 1 ($"a")]; xr [xc ($"b")]] 1.
Proof.
  split; [intros r x _ Hr; inversion Hr|]. split; (intros [|r] x Hx Hr; [|exfalso; inversion Hr; inversion H0]);
    repeat (destruct Hx as [<-|Hx]; [repeat constructor|]); destruct Hx.
Qed.

(** C36 fails for a cell with both a column and a row span ... *)
Theorem C36_block_refuted : exists h t s',
  ref_table [xr [xcs 2 2 ($"a"); xc ($"b")]; xr [xc ($"c"); xc ($"d")]] = (Some (h, t), s') /\
  exists c c' i j, c <> c' /\ In c (flat_map r_cells (t_rows t)) /\ In c' (flat_map r_cells (t_rows t)) /\
    authored h c = true /\ authored h c' = true /\ covers h c i j /\ covers h c' i j.
Proof. exact overlap_block. Qed.
Print Assumptions C36_block_refuted.
(** ... and for row spans alone, when they are staggered. *)
Theorem C36_staggered_refuted : exists h t s',
  ref_table [xr [xc ($"a"); xcs 1 3 ($"b")]; xr [xcs 1 2 ($"c")]; xr [xc ($"d")]] = (Some (h, t), s') /\
  exists c c' i j, c <> c' /\ In c (flat_map r_cells (t_rows t)) /\ In c' (flat_map r_cells (t_rows t)) /\
    authored h c = true /\ authored h c' = true /\ covers h c i j /\ covers h c' i j.
Proof. exact overlap_staggered. Qed.
Print Assumptions C36_staggered_refuted.
(** It holds for tables with simple spans. *)
Theorem C36_disjoint_partial : forall (F : Num) (env : Env F) (eng : Engine F) st xrows (s s' : PS F eng) h t,
  transformTable env st xrows s = (Some (h, t), s') ->
  simple_spans xrows -> forall i j c c', In c (flat_map r_cells (t_rows t)) -> In c' (flat_map r_cells (t_rows t)) ->
  authored h c = true -> authored h c' = true -> covers h c i j -> covers h c' i j -> c = c'.
Proof. exact @disjoint. Qed.
Print Assumptions C36_disjoint_partial.
Example C36_hypothesis : simple_spans sample.
Proof.
  split.
  - intros [|[|[|i]]] x Hx; cbn in Hx; repeat (destruct Hx as [<-|Hx]; [cbn; auto|]); try destruct Hx. destruct i; destruct Hx.
  - intros i x i' x' Hx Hx' [H1 H2]. destruct i as [|[|[|i]]]; cbn in Hx; [| | |destruct i; contradiction];
      repeat (destruct Hx as [<-|Hx]); try contradiction; cbn in H2; try lia.
    assert (i' = 2) by lia. subst i'. destruct Hx' as [<-|[]]. reflexivity.
Qed.

(** C37 *)
Theorem C37_column_widths : forall (env : Env NumQ) (eng : Engine NumQ) st xrows (s s' : PS NumQ eng) h t,
  transformTable env st xrows s = (Some (h, t), s') ->
  let width := table_width (Width (SDim (t_sty t))) s in
  exists req : list Q, List.length req = t_columnCount t /\
  forall j r, nth_error req j = Some r -> requested h (t_rows t) j r /\
    exists w : Q, ((0 < r)%Q -> w = r) /\ (r = 0%Q -> (w == (width - sumQ req) / inject_Z (Z.of_nat (free_columns req)))%Q) /\
      forall i c, cell_at (t_rows t) i j = Some c -> c_width (deref h c) = w.
Proof. exact column_widths. Qed.
Print Assumptions C37_column_widths.
Example C37_example : match ref_table [xr [XCell (with_column_width 20) 1 1 []; xc ($"a"); xc ($"b")]; xr [XCell (with_column_width 30) 1 1 []; xc ($"c")]] with
  | (Some (h, t), _) => forallb (forallb (fun '(a, b) => Qeq_bool a b))
      (map (fun row => combine (map (fun c => c_width (deref h c)) (r_cells row)) [30#1; 25#1; 25#1]%Q) (t_rows t)) = true
  | _ => False end.
Proof. vm_compute. reflexivity. Qed.

(** C38 *)
Theorem C38_fill : forall (env : Env NumQ) (eng : Engine NumQ) st xrows (s s' : PS NumQ eng) h t,
  transformTable env st xrows s = (Some (h, t), s') ->
  forall i, i < List.length (t_rows t) ->
  (exists j, j < t_columnCount t /\ forall i' c, cell_at (t_rows t) i' j = Some c -> ((ColumnWidth (c_sty (deref h c)) : Q) <= 0)%Q) ->
  (sumQ (map (fun c => c_width (deref h c) : Q) (cells (t_rows t) i)) == table_width (Width (SDim (t_sty t))) s)%Q.
Proof. exact fills. Qed.
Print Assumptions C38_fill.
Example C38_example : match ref_table sample with
  | (Some (h, t), s) => Qeq_bool (sumQ (map (fun c => c_width (deref h c)) (cells (t_rows t) 1))) (table_width (Width (SDim (t_sty t))) s) = true /\
      forallb (fun row => forallb (fun c => Qle_bool (ColumnWidth (c_sty (deref h c))) 0) (r_cells row)) (t_rows t) = true
  | _ => False end.
Proof. vm_compute. split; reflexivity. Qed.

(** C39 fails: the requests may exceed the width of the table. *)
Theorem C39_refuted : exists h t s' c,
  ref_table [xr [XCell (with_column_width 100) 1 1 []; xc ($"a")]] = (Some (h, t), s') /\
  In c (flat_map r_cells (t_rows t)) /\ (c_width (deref h c) < 0)%Q.
Proof. exact negative_width. Qed.
Print Assumptions C39_refuted.
(** It holds when they do not. *)
Theorem C39_nonnegative_partial : forall (env : Env NumQ) (eng : Engine NumQ) st xrows (s s' : PS NumQ eng) h t,
  transformTable env st xrows s = (Some (h, t), s') ->
  forall req : list Q, List.length req = t_columnCount t ->
  (forall j r, nth_error req j = Some r -> requested h (t_rows t) j r) ->
  (sumQ req <= table_width (Width (SDim (t_sty t))) s)%Q ->
  forall i j c, cell_at (t_rows t) i j = Some c -> (0 <= (c_width (deref h c) : Q))%Q.
Proof. exact nonneg_widths. Qed.
Print Assumptions C39_nonnegative_partial.

(** C40 *)
Theorem C40_row_heights : forall (env : Env NumQ) (eng : Engine NumQ) st xrows (s s' : PS NumQ eng) h t,
  transformTable env st xrows s = (Some (h, t), s') ->
  forall row, In row (t_rows t) ->
  (forall c, In c (r_cells row) -> c_height (deref h c) = r_height row /\ ((c_minHeight (deref h c) : Q) <= r_height row)%Q) /\
  (0 <= (r_height row : Q))%Q /\
  ((r_height row : Q) = 0%Q \/ exists c, In c (r_cells row) /\ r_height row = c_minHeight (deref h c)).
Proof. exact row_heights. Qed.
Print Assumptions C40_row_heights.
Example C40_example : match ref_table [xr [XCell (with_height_style 20) 1 1 []; xc ($"a")]; xr [xc ($"b"); xc ($"c")]] with
  | (Some (h, t), _) => forallb (fun '(a, b) => Qeq_bool a b) (combine (map r_height (t_rows t)) [20#1; 12#1]%Q) = true
  | _ => False end.
Proof. vm_compute. reflexivity. Qed.

(** C41: the cells whose style gives no height are measured one after the other, in the
    state the table is transformed in, and are tall enough. *)
Theorem C41_measured_partial : forall (env : Env NumQ) (eng : Engine NumQ) st xrows (s s' : PS NumQ eng) h t,
  transformTable env st xrows s = (Some (h, t), s') ->
  forall c th, In (c, th) (fst (measure env h (filter (authored h) (flat_map r_cells (t_rows t))) s)) ->
  ((th : Q) + QTop (Padding (SBox (c_sty (deref h c)))) + QBottom (Padding (SBox (c_sty (deref h c)))) <= snd (cell_dim h c))%Q.
Proof. exact tall_enough. Qed.
Print Assumptions C41_measured_partial.
Theorem C41_all_measured : forall (env : Env NumQ) (eng : Engine NumQ) (s : PS NumQ eng) (h : heap NumQ) (t : table NumQ),
  forall c, In c (flat_map r_cells (t_rows t)) -> authored h c = true -> ((Height (SDim (c_sty (deref h c))) : Q) <= 0)%Q ->
  exists th, In (c, th) (fst (measure env h (filter (authored h) (flat_map r_cells (t_rows t))) s)).
Proof. exact all_measured. Qed.
Print Assumptions C41_all_measured.
(** A cell with a height of its own is at least that high ... *)
Theorem C41_own_height : forall (env : Env NumQ) (eng : Engine NumQ) st xrows (s s' : PS NumQ eng) h t,
  transformTable env st xrows s = (Some (h, t), s') ->
  forall c, In c (flat_map r_cells (t_rows t)) -> authored h c = true -> (0 < (Height (SDim (c_sty (deref h c))) : Q))%Q ->
  ((Height (SDim (c_sty (deref h c))) : Q) <= c_height (deref h c))%Q.
Proof. exact own_height. Qed.
Print Assumptions C41_own_height.
(** ... and may be too low for its text. *)
Theorem C41_refuted : exists h t s' c,
  ref_table [xr [XCell (with_height_style 5) 1 1 [ITextBlock ($"a")]]] = (Some (h, t), s') /\
  In c (flat_map r_cells (t_rows t)) /\ authored h c = true /\
  (snd (cell_dim h c) <
    fst (textHeightFnc (eng:=RefEngine) (fun _ s => s) (fun w => [w]) (c_sty (deref h c)) (c_iss (deref h c)) (text_room h c) (c_sty (deref h c)) ref_state))%Q.
Proof. exact own_height_overflow. Qed.
Print Assumptions C41_refuted.
Example C41_example : match ref_table sample with
  | (Some (h, t), _) => forallb (fun '(c, th) => Qeq_bool th 12)
      (fst (measure (doc_env [] [] [] []) h (filter (authored h) (flat_map r_cells (t_rows t))) ref_state)) = true /\
      List.length (filter (authored h) (flat_map r_cells (t_rows t))) = 5
  | _ => False end.
Proof. vm_compute. split; reflexivity. Qed.

(** C76 *)
Theorem C76_selectors : forall (F : Num) (env : Env F) (eng : Engine F) st xrows (s s' : PS F eng) h t,
  transformTable env st xrows s = (Some (h, t), s') ->
  t_sty t = e_mut env st (ps_sty s) /\
  forall i x l, nth_error xrows i = Some (XRow x l) ->
  exists row, nth_error (t_rows t) i = Some row /\
    r_sty row = (if i =? 0 then e_mut_sel env ($"first-row") x (t_sty t)
                 else if i =? List.length xrows - 1 then e_mut_sel env ($"last-row") x (t_sty t)
                 else e_mut env x (t_sty t)) /\
    forall k y cs rs iss, nth_error l k = Some (XCell y cs rs iss) ->
      exists c, nth_error (filter (authored h) (r_cells row)) k = Some c /\
        c_sty (deref h c) = (if k =? 0 then e_mut_sel env ($"first-cell") y (r_sty row)
                             else if k =? List.length l - 1 then e_mut_sel env ($"last-cell") y (r_sty row)
                             else e_mut env y (r_sty row)).
Proof. exact @all_styles. Qed.
Print Assumptions C76_selectors.
Example C76_example :
  let k : Styled NumQ := mkStyled [] [$"k"] in
  let height v : mutator NumQ := [([2; 1], VFloat (F:=NumQ) v)] in
  let classes := [($"k", mkClass (F:=NumQ) (height 1%Q) [($"first-row", height 2%Q); ($"last-cell", height 3%Q)])] in
  let cell := XCell k 1 1 [] in
  match transformTable (doc_env classes [] [] []) k [XRow k [cell; cell; cell]; XRow k [cell]; XRow no_style []] ref_state with
  | (Some (h, t), _) => map (fun r => Height (SDim (r_sty r))) (t_rows t) = [2; 1; 1]%Q /\
      map (fun c => Height (SDim (c_sty (deref h c)))) (cells (t_rows t) 0) = [1; 1; 3]%Q
  | _ => False end.
Proof. vm_compute. split; reflexivity. Qed.
