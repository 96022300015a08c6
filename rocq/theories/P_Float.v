(** C28, C37, C38, C39, C40, C41, C42, C46, C49, C50, C52, C53, C63, C86, C92, C93 and C106 for float64 numbers: images, the sizes of columns,
    rows and cells, and the widths of lines in binary64 arithmetic. The
    values of the numbers are real numbers, hence these theorems rest on the axioms of the
    standard library's reals. *)
From Coq Require Import ZArith Reals Floats.SpecFloat.
From Verif Require Import GoStr Num Style Class Instr Engine Layout Grid Table Lines Proc ProcView TableView TableSpec DrawSpec LayoutSpec LinesSpec LinesView WriteSpec ProcSpec Fpdf FloatSpec FloatFillSpec FloatImage FloatTable FloatLines FloatEdges FloatHeight FloatFill FloatTall FloatWriteSpec FloatWrite FloatBoxSpec FloatBox CellSpec FloatCell FloatCellSpec FloatWit FloatFillWit FloatWriteWit FloatBoxWit FloatCellWit.
From Coq Require Import Rdefinitions.
Local Open Scope R_scope.

(** C28 *)
Theorem C28_float : forall (env : Env NumF64) (eng : Engine NumF64) st source (pa : PrintableArea NumF64) (s : PS NumF64 eng) wpx hpx,
  e_image env (e_resolve env source) = Some (wpx, hpx) -> (0 < wpx <= 2 ^ 53)%Z -> (0 < hpx <= 2 ^ 53)%Z ->
  let d := SDim (e_mut env st (ps_sty s)) in
  ordinary (sub (sub (pa_x1 pa) (pa_x0 pa)) (OffsetX d)) -> ordinary (sub (sub (pa_y1 pa) (pa_y0 pa)) (OffsetY d)) ->
  fin (Width d) -> fin (Height d) -> (0 < fval (Width d) -> ordinary (Width d)) -> (0 < fval (Height d) -> ordinary (Height d)) ->
  exists w h wr hr,
    ps_trace (snd (renderImage env st source pa s)) =
      ps_trace s ++ [Ev (Simple (PutImage (e_resolve env source) (add (fst (getXY (ps_eng s))) (OffsetX d)) (add (snd (getXY (ps_eng s))) (OffsetY d)) w h)) []] /\
    requested_float wpx hpx (fval (Width d)) (fval (Height d)) wr hr /\
    fitted_float wr hr (fval (sub (sub (pa_x1 pa) (pa_x0 pa)) (OffsetX d))) (fval (sub (sub (pa_y1 pa) (pa_y0 pa)) (OffsetY d))) (fval w) (fval h).
Proof. exact image_float. Qed.
Print Assumptions C28_float.
(** A picture of 1000 x 300 pixels in an area of 190 x 277 is reduced to 190 x 57. *)
Example C28_float_example :
  let d := SDim (e_mut f_env no_style (ps_sty f_state)) in
  e_image f_env ($"a.png") = Some (1000%Z, 300%Z) /\
  ordinary (sub (sub (pa_x1 f_area) (pa_x0 f_area)) (OffsetX d)) /\ ordinary (sub (sub (pa_y1 f_area) (pa_y0 f_area)) (OffsetY d)) /\
  moderate (Width d) /\ moderate (Height d) /\ ltb zero (Width d) = false /\ ltb zero (Height d) = false /\
  ps_trace (snd (renderImage f_env no_style ($"a.png") f_area f_state)) =
    [Ev (Simple (PutImage ($"a.png") (of_Z 10) (of_Z 10) (of_Z 190) (of_Z 57))) []].
Proof.
  split; [reflexivity|]. split; [apply ordinary_b_ok; vm_compute; reflexivity|]. split; [apply ordinary_b_ok; vm_compute; reflexivity|].
  split; [apply moderate_b_ok; vm_compute; reflexivity|]. split; [apply moderate_b_ok; vm_compute; reflexivity|]. repeat (split; [vm_cast_no_check (eq_refl false)|]).
  match goal with |- _ = ?b => vm_cast_no_check (eq_refl b) end.
Qed.

(** C37 *)
Theorem C37_float : forall (env : Env NumF64) (eng : Engine NumF64) st xrows (s s' : PS NumF64 eng) h t,
  transformTable env st xrows s = (Some (h, t), s') ->
  (forall c, In c (flat_map r_cells (t_rows t)) -> moderate (ColumnWidth (c_sty (deref h c)))) ->
  moderate (Width (SDim (t_sty t))) -> moderate (printable_width s) -> (Z.of_nat (t_columnCount t) <= 2 ^ 20)%Z ->
  let width := fval (table_width_f (Width (SDim (t_sty t))) s) in
  exists req : list R, List.length req = t_columnCount t /\
  forall j r, nth_error req j = Some r -> requested_f h (t_rows t) j r /\
    exists w : NumF64, fin w /\ (0 < r -> fval w = r) /\
      (r = 0 -> Rabs (INR (free_columns_f req) * fval w - (width - sumR req)) <= column_error width req) /\
      forall i c, cell_at (t_rows t) i j = Some c -> c_width (deref h c) = w.
Proof. exact column_widths_float. Qed.
Print Assumptions C37_float.

(** C38 *)
Theorem C38_float : forall (env : Env NumF64) (eng : Engine NumF64) st xrows (s s' : PS NumF64 eng) h t,
  transformTable env st xrows s = (Some (h, t), s') ->
  (forall c, In c (flat_map r_cells (t_rows t)) -> moderate (ColumnWidth (c_sty (deref h c)))) ->
  moderate (Width (SDim (t_sty t))) -> moderate (printable_width s) -> (Z.of_nat (t_columnCount t) <= 2 ^ 20)%Z ->
  let width := fval (table_width_f (Width (SDim (t_sty t))) s) in
  forall req : list R, List.length req = t_columnCount t -> (forall j r, nth_error req j = Some r -> requested_f h (t_rows t) j r) ->
  forall i, (i < List.length (t_rows t))%nat ->
  (exists j, (j < t_columnCount t)%nat /\ forall i' c, cell_at (t_rows t) i' j = Some c -> fval (ColumnWidth (c_sty (deref h c))) <= 0) ->
  Rabs (sumR (map (fun c => fval (c_width (deref h c))) (cells (t_rows t) i)) - width) <= column_error width req.
Proof. exact fills_float. Qed.
Print Assumptions C38_float.
(** Four columns, the first one asking for 0.1. The others get the float64 next to 63.3, hence
    the sum is not exactly 190. *)
Example C38_float_example : match transformTable f_env no_style f_rows f_state with
  | (Some (h, t), _) =>
      let cs := flat_map r_cells (t_rows t) in
      (t_columnCount t, forallb (fun c => moderate_b (ColumnWidth (c_sty (deref h c)))) cs && moderate_b (Width (SDim (t_sty t))) && moderate_b (printable_width f_state),
       map (fun c => ltb zero (ColumnWidth (c_sty (deref h c)))) cs, table_width_f (Width (SDim (t_sty t))) f_state :: map (fun c => c_width (deref h c)) cs)
  | _ => (0%nat, false, [], [] : list NumF64) end =
  (4%nat, true, [true; false; false; false],
   [of_Z 190 : NumF64; S754_finite false 7205759403792794 (-56); S754_finite false 8908683012892263 (-47); S754_finite false 8908683012892263 (-47); S754_finite false 8908683012892263 (-47)]).
Proof. match goal with |- _ = ?b => vm_cast_no_check (eq_refl b) end. Qed.

(** C39: when the columns do not ask for more than the width of the table, no width is below 0
    by more than the rounding. Missing, as in C39_nonnegative_partial: columns asking for more
    (C39_refuted). *)
Theorem C39_float_partial : forall (env : Env NumF64) (eng : Engine NumF64) st xrows (s s' : PS NumF64 eng) h t,
  transformTable env st xrows s = (Some (h, t), s') ->
  (forall c, In c (flat_map r_cells (t_rows t)) -> moderate (ColumnWidth (c_sty (deref h c)))) ->
  moderate (Width (SDim (t_sty t))) -> moderate (printable_width s) -> (Z.of_nat (t_columnCount t) <= 2 ^ 20)%Z ->
  let width := fval (table_width_f (Width (SDim (t_sty t))) s) in
  forall req : list R, List.length req = t_columnCount t -> (forall j r, nth_error req j = Some r -> requested_f h (t_rows t) j r) ->
  sumR req <= width ->
  forall i j c, cell_at (t_rows t) i j = Some c -> - column_error width req <= fval (c_width (deref h c)).
Proof. exact nonneg_float. Qed.
Print Assumptions C39_float_partial.
(** The table of C38_float_example: its only request, 0.1, is below the width of the table. *)
Example C39_float_example : match transformTable f_env no_style f_rows f_state with
  | (Some (h, t), _) =>
      let cs := flat_map r_cells (t_rows t) in
      (map (fun c => (ltb zero (ColumnWidth (c_sty (deref h c))), Num.leb (ColumnWidth (c_sty (deref h c))) (table_width_f (Width (SDim (t_sty t))) f_state))) cs,
       map (fun c => Num.leb zero (c_width (deref h c))) cs)
  | _ => ([], []) end = ([(true, true); (false, true); (false, true); (false, true)], [true; true; true; true]).
Proof. match goal with |- _ = ?b => vm_cast_no_check (eq_refl b) end. Qed.

(** C40 *)
Theorem C40_float : forall (env : Env NumF64) (eng : Engine NumF64) st xrows (s s' : PS NumF64 eng) h t,
  transformTable env st xrows s = (Some (h, t), s') ->
  forall row, In row (t_rows t) -> (forall c, In c (r_cells row) -> fin (c_minHeight (deref h c))) ->
  (forall c, In c (r_cells row) -> c_height (deref h c) = r_height row /\ fval (c_minHeight (deref h c)) <= fval (r_height row)) /\
  0 <= fval (r_height row) /\
  (r_height row = (zero : NumF64) \/ exists c, In c (r_cells row) /\ r_height row = c_minHeight (deref h c)).
Proof. exact @row_heights_float. Qed.
Print Assumptions C40_float.
(** C41: a cell whose style gives no height is as high as its text and paddings, up to rounding.
    Missing, as in C41_measured_partial: cells with a height of their own (C41_refuted). *)
Theorem C41_float_partial : forall (env : Env NumF64) (eng : Engine NumF64) st xrows (s s' : PS NumF64 eng) h t,
  transformTable env st xrows s = (Some (h, t), s') ->
  (forall c, In c (flat_map r_cells (t_rows t)) -> moderate (c_minHeight (deref h c))) ->
  forall c (th : NumF64), In (c, th) (fst (measure env h (filter (authored h) (flat_map r_cells (t_rows t))) s)) ->
  let x := deref h c in
  let top := QTop (Padding (SBox (c_sty x))) in
  let bottom := QBottom (Padding (SBox (c_sty x))) in
  let n := (1 + List.length (c_spansRows x))%nat in
  moderate th -> moderate top -> moderate bottom -> (Z.of_nat n <= 2 ^ 20)%Z ->
  fin (snd (cell_dim h c)) /\
  fval th + fval top + fval bottom <= fval (snd (cell_dim h c)) + INR n * / 2 ^ 50 * (Rabs (fval th) + Rabs (fval top) + Rabs (fval bottom)) + / 2 ^ 1000.
Proof. exact @tall_enough_float. Qed.
Print Assumptions C41_float_partial.
Theorem C41_own_height_float : forall (env : Env NumF64) (eng : Engine NumF64) st xrows (s s' : PS NumF64 eng) h t,
  transformTable env st xrows s = (Some (h, t), s') ->
  (forall c, In c (flat_map r_cells (t_rows t)) -> moderate (c_minHeight (deref h c))) ->
  forall c, In c (flat_map r_cells (t_rows t)) -> authored h c = true -> fin (Height (SDim (c_sty (deref h c)))) ->
  0 < fval (Height (SDim (c_sty (deref h c)))) -> fval (Height (SDim (c_sty (deref h c)))) <= fval (c_height (deref h c)).
Proof. exact @own_height_float. Qed.
Print Assumptions C41_own_height_float.
(** A text over six rows; the sum of the six heights is below what the text asks for. *)
Example C41_float_example : match transformTable f_env no_style f_six f_state with
  | (Some (h, t), _) =>
      (forallb (fun c => moderate_b (c_minHeight (deref h c))) (flat_map r_cells (t_rows t)),
       map (fun '(c, th) =>
         let p := Padding (SBox (c_sty (deref h c))) in
         (th, List.length (c_spansRows (deref h c)), forallb moderate_b [th; QTop p; QBottom p], ltb (snd (cell_dim h c)) (add (add th (QTop p)) (QBottom p))))
         (firstn 1 (fst (measure f_env h (filter (authored h) (flat_map r_cells (t_rows t))) f_state))))
  | _ => (false, []) end = (true, [(of_Z 5 : NumF64, 5%nat, true, true)]).
Proof. match goal with |- _ = ?b => vm_cast_no_check (eq_refl b) end. Qed.
(** C42 *)
Theorem C42_float : forall (h : heap NumF64) (rows : list (trow NumF64)) i, (forall c, In c (cells rows i) -> fin (snd (cell_dim h c))) ->
  (forall c, In c (cells rows i) -> fval (snd (cell_dim h c)) <= fval (tallest h rows i)) /\ 0 <= fval (tallest h rows i) /\
  (tallest h rows i = (zero : NumF64) \/ exists c, In c (cells rows i) /\ tallest h rows i = snd (cell_dim h c)).
Proof. exact tallest_float. Qed.
Print Assumptions C42_float.
(** Cells with heights 0.1 and 0.2 in a row, and the first one reaches into a row of height 0.7. *)
Example C42_float_example : match transformTable f_env no_style f_tall f_state with
  | (Some (h, t), _) =>
      (forallb (fun c => moderate_b (c_minHeight (deref h c)) && moderate_b (snd (cell_dim h c))) (flat_map r_cells (t_rows t)),
       map r_height (t_rows t), map (tallest h (t_rows t)) [0; 1]%nat)
  | _ => (false, [], [] : list NumF64) end =
  (true, [f_tenths 2; f_tenths 7], [add (f_tenths 2) (f_tenths 7); f_tenths 7]).
Proof. match goal with |- _ = ?b => vm_cast_no_check (eq_refl b) end. Qed.

(** C93: both the right edge of a cell and the left edge of the column behind it are the exact
    edge up to the rounding errors. *)
Theorem C93_float : forall (env : Env NumF64) (eng : Engine NumF64) st xrows (s s' : PS NumF64 eng) h t,
  transformTable env st xrows s = (Some (h, t), s') ->
  forall i j c (x0 : NumF64), cell_at (t_rows t) i j = Some c -> authored h c = true ->
  unreached xrows i \/ span (c_colSpan (deref h c)) = 1%nat ->
  (forall c, In c (cells (t_rows t) i) -> moderate (c_width (deref h c)) /\ 0 <= fval (c_width (deref h c))) -> moderate x0 -> 0 <= fval x0 ->
  let n := (j + span (c_colSpan (deref h c)))%nat in (Z.of_nat n < 2 ^ 20)%Z ->
  let right := fval x0 + sumR (map (fun c => fval (c_width (deref h c))) (firstn n (cells (t_rows t) i))) in
  let eps := INR (n + 1) * / 2 ^ 50 * right in
  Rabs (fval (left_edge h x0 (cells (t_rows t) i) j) + fval (fst (cell_dim h c)) - right) <= eps /\
  Rabs (fval (left_edge h x0 (cells (t_rows t) i) n) - right) <= eps.
Proof. exact @right_edge_float. Qed.
Print Assumptions C93_float.
(** Columns of widths 0.1, 0.2 and 0.3 from 0 on. The cell over the last two begins at 0.1 and is
    0.5 wide, but the next column begins at 0.6000000000000001. *)
Example C93_float_example : match transformTable f_env no_style f_wide f_state with
  | (Some (h, t), _) => let row := cells (t_rows t) 0 in
      (forallb (fun c => moderate_b (c_width (deref h c)) && Num.leb zero (c_width (deref h c))) row,
       map (fun c => (authored h c, c_colSpan (deref h c))) row, left_edge h zero row 1, map (fun c => fst (cell_dim h c)) (skipn 1 (firstn 2 row)), ltb (f_tenths 6) (left_edge h zero row 3))
  | _ => (false, [], zero : NumF64, [], false) end =
  (true, [(true, 1%Z); (true, 2%Z); (false, 0%Z)], f_tenths 1, [f_tenths 5], true).
Proof. match goal with |- _ = ?b => vm_cast_no_check (eq_refl b) end. Qed.

(** C46 *)
Theorem C46_float : forall (eng : Engine NumF64) mut, page_stable (eng:=eng) ->
  forall iss width sty (s : PS NumF64 eng), moderate width -> 0 <= fval width ->
  let '(lines, _) := textLines mut iss width sty s in
  exists gs, Forall2 is_line lines gs /\
    broken_into (fun _ => []) width (tokens (eng:=eng) mut false (currentPage (ps_eng s)) sty iss (ps_eng s)) gs /\
    Forall2 (fun l g => (2 <= List.length (l_items l))%nat -> (Z.of_nat (List.length (l_items l)) <= 2 ^ 20)%Z ->
      (forall f, In f (g_frags g) -> moderate (frag_width f) /\ 0 <= fval (frag_width f)) ->
      fin (l_width l) /\ fval (l_width l) < fval width /\
      sumR (map (fun f => fval (frag_width f)) (g_frags g)) <= fval width * (1 + INR (List.length (l_items l) + 1) * / 2 ^ 50)) lines gs.
Proof. exact @lines_fit_float. Qed.
Print Assumptions C46_float.
(** C49 *)
Theorem C49_float : forall (eng : Engine NumF64) mut hyph, page_stable (eng:=eng) ->
  forall iss width sty (s : PS NumF64 eng), moderate width -> 0 <= fval width ->
  let '(lines, _) := textLinesHyphenated mut hyph iss width sty s in
  exists gs, Forall2 is_block_line lines gs /\
    broken_into hyph width (tokens (eng:=eng) mut true (currentPage (ps_eng s)) sty iss (ps_eng s)) gs /\
    Forall2 (fun l g => (2 <= List.length (l_items l))%nat -> (Z.of_nat (List.length (l_items l)) <= 2 ^ 20)%Z ->
      (forall f, In f (g_frags g) -> moderate (frag_width f) /\ 0 <= fval (frag_width f)) ->
      fin (l_width l) /\ fval (l_width l) <= fval width * (1 + / 2 ^ 51) /\
      sumR (map (fun f => fval (frag_width f)) (g_frags g)) <= fval width * (1 + INR (List.length (l_items l) + 1) * / 2 ^ 50)) lines gs.
Proof. exact @block_fits_float. Qed.
Print Assumptions C49_float.
(** Every character is 1.1 wide. On a line of 12.1 the head "banana-" is put behind "aa", and the
    width 3.3 + 8.8 of the line is 12.100000000000001. *)
Example C49_float_example : page_stable (eng:=still) /\
  (let '(lines, _) := textLinesHyphenated (eng:=still) same_style_f (fun w => if beqb w ($"bananas") then [$"banana"; $"s"] else [w]) [ITextBlock ($"aa bananas")] (f_tenths 121) DefaultStyle f_state in
  (map (fun l => map i_text (l_items l)) lines, map (fun l => ltb (f_tenths 121) (l_width l)) lines, forallb (fun l => moderate_b (l_width l)) lines)) =
  ([[$"aa"; $" banana-"]; [$"s"]], [true; false], true).
Proof. split; [intros f e; reflexivity|]. match goal with |- _ = ?b => vm_cast_no_check (eq_refl b) end. Qed.

(** C50: on engines that measure by the font and move the cursor in binary64, the words of a
    stretched line are written with one gap between them, and words and gaps add up to the width
    less 0.1, up to [fill_error]. *)
Theorem C50_float : forall (eng : Engine NumF64) mut hyph tw font, float_writer eng tw font ->
  forall callback iss width sty (s s' : PS NumF64 eng), moderate width -> writeTextHyphenated callback mut hyph iss width sty s = Ok tt s' ->
  exists lines s1 css, textLinesHyphenated mut hyph iss width sty (text_state sty s) = (lines, s1) /\
    fst (getXY (ps_eng s1)) = fst (getXY (ps_eng s)) /\
    Forall2 (filled_float tw width sty (fst (getXY (ps_eng s)))) lines css /\
    wrote s s' (start_cmds (F:=NumF64) sty (text_fonts mut true (currentPage (ps_eng s)) sty iss) ++ List.concat css).
Proof. exact @text_filled_f. Qed.
Print Assumptions C50_float.
(** Three words of 2.2 on a line of 12.1: the cursor is set to 10 and then near 14.9, 19.8
    and 24.7, though not to the floats nearest to these; the fourth word is on the next line. *)
Example C50_float_example : float_writer ruler ruler_width snd /\
  (match writeTextHyphenated no_calls same_style_f (fun w => [w]) [ITextBlock ($"aa bb cc dd")] (f_tenths 121) DefaultStyle ruler_state with
  | Ok _ s => (List.length (ps_trace s), map (fun p => eqb (fst p) (f_tenths (snd p))) (combine (set_at (ps_trace s)) [100; 149; 198; 247; 100]%Z), List.length (set_at (ps_trace s)),
      moderate_b (ruler_width (SFont DefaultStyle) ($"aa")))
  | _ => (0, [], 0, false)%nat
  end) = (18, [true; false; false; false; true], 5, true)%nat.
Proof. split; [exact ruler_writer|]. match goal with |- _ = ?b => vm_cast_no_check (eq_refl b) end. Qed.

(** C52: writing a text advances the cursor by its measured height and the spacing below its last
    line, up to the rounding of as many steps as the text has lines. *)
Theorem C52_float : forall (eng : Engine NumF64) mut hyph tw fh font, float_printer eng tw fh font ->
  forall callback (h : NumF64) iss width (sty : Styles NumF64) (s s0 s' : PS NumF64 eng),
  (fh (SFont sty) = h /\ forall f, In f (text_fonts mut (beqb (HAlign (SAlign sty)) ($"block")) (currentPage (ps_eng s)) sty iss) -> fh f = h) ->
  currentPage (ps_eng s0) = currentPage (ps_eng s) ->
  writeTextFnc callback mut hyph sty iss width sty s = Ok tt s' ->
  let n := measured_lines mut hyph iss width sty s0 in
  let l := LineSpacing (SDim sty) in
  let y := snd (getXY (ps_eng s)) in
  let y' := snd (getXY (ps_eng s')) in
  let th := fst (textHeightFnc mut hyph sty iss width sty s0) in
  (Z.of_nat n < 2 ^ 20)%Z -> moderate y -> 0 <= fval y -> moderate h -> 0 <= fval h -> moderate l -> 0 <= fval l -> moderate (mul h l) ->
  fin y' /\ fin th /\ Rabs (fval y' - (fval y + (fval th + (fval l - 1) * fval h))) <= height_error n (fval y) (fval h) (fval l).
Proof. exact written_height_float. Qed.
Print Assumptions C52_float.
(** Three lines, 0.1 high, from 0.3 on: the cursor goes down step by step, and the float it reaches
    is not the one computed from the measured height. *)
Example C52_float_example : float_printer ladder ruler_width (fun _ => f_tenths 1) snd /\
  (let sty : Styles NumF64 := DefaultStyle in let l := LineSpacing (SDim sty) in let h := f_tenths 1 in
   let iss := [ITextBlock ($"aaaa bbbb cccc")] in
   match writeTextFnc ladder_calls same_style_f (fun w => [w]) sty iss (f_tenths 60) sty ladder_state with
   | Ok _ s' =>
       let th := fst (textHeightFnc same_style_f (fun w => [w]) sty iss (f_tenths 60) sty ladder_state) in
       (measured_lines same_style_f (fun w => [w]) iss (f_tenths 60) sty ladder_state,
        moderate_b (f_tenths 3) && moderate_b h && moderate_b l && moderate_b (mul h l),
        Num.leb zero l, ltb (f_tenths 3) (snd (getXY (ps_eng s'))),
        eqb (snd (getXY (ps_eng s'))) (add (f_tenths 3) (add th (mul (sub l (of_Z 1)) h))))
   | _ => (0%nat, false, false, false, true)
   end = (3%nat, true, true, true, false)).
Proof. split; [exact ladder_printer|]. cbv zeta. match goal with |- _ = ?b => vm_cast_no_check (eq_refl b) end. Qed.

(** C53: the height of a text with a word or a line break, or of any text with a line spacing of at
    most 1, is not negative, in spite of all rounding. *)
Theorem C53_float_partial : forall (eng : Engine NumF64) mut hyph, page_stable (eng:=eng) -> (forall e : est eng, moderate (fontHeight e) /\ 0 <= fval (fontHeight e)) ->
  forall iss width (sty : Styles NumF64) (s : PS NumF64 eng),
  moderate (LineSpacing (SDim sty)) -> 0 <= fval (LineSpacing (SDim sty)) -> (Z.of_nat (measured_lines mut hyph iss width sty s) <= 2 ^ 53)%Z ->
  fval (LineSpacing (SDim sty)) <= 1 \/ (exists is, In is iss /\ (is = ILineBreak \/ instr_words mut (currentPage (ps_eng s)) sty is <> [])) ->
  let v := fst (textHeightFnc mut hyph sty iss width sty s) in fin v /\ 0 <= fval v.
Proof. exact @height_float. Qed.
Print Assumptions C53_float_partial.
Example C53_float_example : let sty : Styles NumF64 := DefaultStyle in let fh : NumF64 := @fontHeight NumF64 still tt in
  moderate_b fh = true /\ ltb zero fh = true /\ moderate_b (LineSpacing (SDim sty)) = true /\ ltb (of_Z 1) (LineSpacing (SDim sty)) = true /\
  measured_lines same_style_f (fun w => [w]) [ITextBlock ($"aa")] (f_tenths 121) sty f_state = 1%nat /\
  instr_words same_style_f 1 sty (ITextBlock ($"aa")) <> [].
Proof. cbv zeta. repeat (split; [match goal with |- _ = ?b => vm_cast_no_check (eq_refl b) end|]). vm_compute. discriminate. Qed.

(** C63: the frame of a box reaches below the bottom margin by not more than its vertical padding
    and offset and the rounding, if its text fits on a page. Missing, as in C63_bottom_partial:
    that it does not reach below the margin at all (C63_refuted). *)
Theorem C63_float_partial : forall (env : Env NumF64) (eng : Engine NumF64) (callback : cb -> M eng unit), places eng -> page_stable (eng:=eng) -> forall top,
  (forall s1 s2 : PS NumF64 eng, add_page callback s1 = Ok tt s2 -> snd (getXY (ps_eng s2)) = top) ->
  forall st iss pa (s s' : PS NumF64 eng), ps_prevent s = false -> renderTextBox env callback st iss pa s = Ok tt s' ->
  let sty := e_mut env st (ps_sty s) in
  let pad := Padding (SBox sty) in
  exists h s1 s2 frame rest x0 y0 x1 y1,
    box_height env sty iss (sub (sub (effective_width pa (Width (SDim sty))) (QLeft pad)) (QRight pad)) s h s1 /\
    wrote s2 s' (frame ++ rest) /\ draws_box x0 y0 x1 y1 sty frame /\
    (let '(_, _, _, m) := margins (ps_eng s1) in
     let bottom := sub (pageHeight (ps_eng s1)) m in
     let parts := [snd (getXY (ps_eng s2)); OffsetY (SDim sty); h; QTop pad; QBottom pad] in
     fin bottom -> (forall v, In v parts -> moderate v) -> fval top + fval h < fval bottom ->
     fin y1 /\ fval y1 <= fval bottom + fval (OffsetY (SDim sty)) + fval (QTop pad) + fval (QBottom pad) + sum_error parts).
Proof. exact box_bottom_float. Qed.
Print Assumptions C63_float_partial.
(** A text 0.1 high at 286.8, with padding 0.2 above and 0.1 below: the frame ends below the bottom
    margin at 287. *)
Example C63_float_example : places desk /\ page_stable (eng:=desk) /\
  (forall s s' : PS NumF64 desk, add_page desk_calls s = Ok tt s' -> snd (getXY (ps_eng s')) = (of_Z 10 : NumF64)) /\
  match renderTextBox f_env desk_calls f_padding [ITextBlock ($"x")] f_area desk_state with
  | Ok _ s' => existsb too_low (map ev_cmd (ps_trace s')) && negb (existsb (fun c => match c with AddPage => true | _ => false end) (map ev_cmd (ps_trace s')))
  | _ => false end = true /\
  forallb (fun v : NumF64 => moderate_b v) [f_tenths 2868; zero; f_tenths 1; f_tenths 2; sub (of_Z 297) (of_Z 10)] = true.
Proof.
  split; [exact desk_places|]. split; [exact desk_stable|]. split; [exact (desk_top desk_calls)|]. split; vm_cast_no_check (eq_refl true).
Qed.

(** C92: the printable area of the PDF engine, up to rounding. *)
Theorem C92_area_float : forall (pdf : Pdf NumF64) (e : est (FPDF NumF64 pdf)),
  let '(l, t, r, b) := margins e in let '(x0, y0, x1, y1) := printableArea e in
  moderate r -> moderate b -> moderate (pageWidth e) -> moderate (pageHeight e) ->
  x0 = l /\ y0 = t /\ fin x1 /\ fin y1 /\
  Rabs (fval x1 + 2 + fval r - fval (pageWidth e)) <= sum_error [pageWidth e; r; of_Z 2] /\
  Rabs (fval y1 + fval b - fval (pageHeight e)) <= sum_error [pageHeight e; b].
Proof. exact area_float. Qed.
Print Assumptions C92_area_float.
(** With a right margin of 10.1 and a page width of 210.3, the right edge is not the float nearest
    to 198.2. *)
Example C92_area_float_example : let e : est (FPDF NumF64 FlatPdf) := tt in
  let '(_, _, r, b) := margins e in let '(_, _, x1, _) := printableArea e in
  (moderate_b r && moderate_b b && moderate_b (pageWidth e) && moderate_b (pageHeight e), eqb x1 (f_tenths 1982)) = (true, false).
Proof. vm_cast_no_check (eq_refl (true, false)). Qed.

(** C86 fails in float64 also for texts that are not block text: the inner width of a cell is
    rounded otherwise for measuring its text (table.go:404) than for writing it (table.go:416), so
    that a text measured as one line may be written as two. Here the text of a cell aligned at the
    bottom ends 4.9 below the lower edge of the inner area (lines are 5 high). *)
Theorem C86_float_refuted : exists (eng : Engine NumF64) tw fh font (h : NumF64), float_printer eng tw fh font /\ places eng /\ (forall f, fh f = h) /\
  exists env callback pa (x : tcell NumF64) (s s' : PS NumF64 eng), let sty := c_sty x in
  beqb (HAlign (SAlign sty)) ($"block") = false /\ VAlign (SAlign sty) = $"bottom" /\ LineSpacing (SDim sty) = of_Z 1 /\
  (exists t, c_iss x = [ITextBlock t]) /\
  renderCell env callback pa x s = Ok tt s' /\
  let lower := sub (pa_y1 pa) (QBottom (Padding (SBox sty))) in
  ltb (add lower (f_tenths 49)) (snd (getXY (ps_eng s'))) = true.
Proof.
  exact (ex_intro _ sheet (ex_intro _ ruler_width (ex_intro _ (fun _ => of_Z 5) (ex_intro _ snd (ex_intro _ (of_Z 5) (conj sheet_printer (conj sheet_places (conj (fun _ => eq_refl) cell_over)))))))).
Qed.
Print Assumptions C86_float_refuted.
(** It holds, up to rounding, for the texts of cells whose inner width is the same float when
    measured and when written. Missing, as in C86_aligned_partial: block text. *)
Theorem C86_float_partial : forall (eng : Engine NumF64) tw fh font, float_printer eng tw fh font -> places eng ->
  (forall (v : NumF64) (e : est eng), currentPage (simple (SetX v) e) = currentPage e /\ currentPage (simple (SetY v) e) = currentPage e) ->
  forall env callback h pa (x : tcell NumF64) (s s' : PS NumF64 eng),
  let sty := c_sty x in
  let pad := Padding (SBox sty) in
  beqb (HAlign (SAlign sty)) ($"block") = false -> c_iss x <> [] -> (forall i, In i (c_iss x) -> text_only i = true) ->
  fh (SFont sty) = h -> (forall n f, In f (text_fonts (e_mut env) false n sty (c_iss x)) -> fh f = h) ->
  let width : NumF64 := sub (sub (pa_x1 pa) (QRight pad)) (add (pa_x0 pa) (QLeft pad)) in
  sub (sub (sub (pa_x1 pa) (pa_x0 pa)) (QLeft pad)) (QRight pad) = width ->
  renderCell env callback pa x s = Ok tt s' ->
  exists before y text (s1 s2 : PS NumF64 eng),
    wrote s s2 (before ++ [Simple (SetY (F:=NumF64) y); Simple (SetX (add (pa_x0 pa) (QLeft pad)))]) /\
    text_written env sty (c_iss x) width (fst (getXY (ps_eng s2))) s2 text /\
    wrote s2 s' (text ++ [Simple (SetX (add (pa_x0 pa) (QLeft pad)))]) /\
    (let n := measured_lines (e_mut env) (e_hyph env) (c_iss x) width sty s1 in
     let th := fst (textHeightFnc (e_mut env) (e_hyph env) sty (c_iss x) width sty s1) in
     let l := LineSpacing (SDim sty) in
     let parts := [pa_y0 pa; QTop pad; pa_y1 pa; QBottom pad; th] in
     let upper := fval (pa_y0 pa) + fval (QTop pad) in
     let lower := fval (pa_y1 pa) - fval (QBottom pad) in
     let ending := fval (snd (getXY (ps_eng s'))) - (fval l - 1) * fval h in
     (Z.of_nat n < 2 ^ 20)%Z -> (forall v, In v parts -> moderate v) -> moderate y -> 0 <= fval y ->
     moderate h -> 0 <= fval h -> moderate l -> 0 <= fval l -> moderate (mul h l) ->
     let rounding := height_error n (fval y) (fval h) (fval l) in
     if beqb (VAlign (SAlign sty)) ($"middle") then Rabs ((fval y - upper) - (lower - ending)) <= 2 * sum_error parts + rounding + / 2 ^ 1000
     else if beqb (VAlign (SAlign sty)) ($"bottom") then Rabs (ending - lower) <= sum_error parts + rounding
     else y = add (pa_y0 pa) (QTop pad)).
Proof. exact @cell_aligned_float. Qed.
Print Assumptions C86_float_partial.
(** Two lines, 5 high, in the middle of a cell from 20 to 50.1. *)
Example C86_float_example : float_printer sheet ruler_width (fun _ => of_Z 5) snd /\ places sheet /\
  (forall (v : NumF64) (e : est sheet), currentPage (simple (SetX v) e) = currentPage e /\ currentPage (simple (SetY v) e) = currentPage e) /\
  (forall i, In i (c_iss (sheet_cell ($"middle") two_words)) -> text_only i = true) /\
  (let x := sheet_cell ($"middle") two_words in let pad := Padding (SBox (c_sty x)) in let pa := mkPA (of_Z 10) (of_Z 20) (f_tenths 319) (f_tenths 501) : PrintableArea NumF64 in
   let width : NumF64 := sub (sub (pa_x1 pa) (QRight pad)) (add (pa_x0 pa) (QLeft pad)) in
   sub (sub (sub (pa_x1 pa) (pa_x0 pa)) (QLeft pad)) (QRight pad) = width /\
   measured_lines (e_mut f_env) (e_hyph f_env) (c_iss x) width (c_sty x) sheet_state = 2%nat /\
   forallb (fun v : NumF64 => moderate_b v) [pa_y0 pa; QTop pad; pa_y1 pa; QBottom pad; of_Z 5; LineSpacing (SDim (c_sty x)); mul (of_Z 5) (LineSpacing (SDim (c_sty x)))] = true /\
   match renderCell f_env sheet_calls pa x sheet_state with
   | Ok _ s' => flat_map (fun c => match c with Simple (SetY y) => [ltb (of_Z 30) y && ltb y (f_tenths 301)] | WriteText _ => [true] | _ => [] end) (map ev_cmd (ps_trace s'))
   | _ => [] end = [true; true; true]).
Proof.
  split; [exact sheet_printer|]. split; [exact sheet_places|]. split; [exact sheet_keeps|]. split; [intros i [<-|[]]; reflexivity|]. cbv zeta.
  split; [vm_compute; reflexivity|]. split; [vm_compute; reflexivity|]. split; match goal with |- _ = ?b => vm_cast_no_check (eq_refl b) end.
Qed.

(** C106 fails in float64: the inner width of a cell is rounded otherwise when the height of its row
    is computed (table.go:253) than when its text is written (table.go:416). The second word of the
    only cell of this table is written below the frame of the cell. *)
Theorem C106_float_refuted : exists (eng : Engine NumF64) tw fh font, float_printer eng tw fh font /\ places eng /\ (forall f, fh f = of_Z 5) /\
  exists env (e : est eng) s st cst,
  e_header env = [] /\ e_footer env = [] /\ e_body env = [ITable (XTable st 0 [XRow no_style [XCell cst 1 1 [ITextBlock ($"aaaaaaaaaaa bbbbbbbbbbb")]]])] /\
  e_hyph env = (fun w => [w]) /\
  process env 3 e = Ok None s /\
  exists y1 y2 low,
    written_at (of_Z 5) (snd (getXY e)) (map ev_cmd (ps_trace s)) = [($"aaaaaaaaaaa", y1); ($"bbbbbbbbbbb", y2)] /\
    corners (map ev_cmd (ps_trace s)) <> [] /\ Forall (fun y => Num.leb y low = true) (corners (map ev_cmd (ps_trace s))) /\ ltb low y2 = true.
Proof.
  exact (ex_intro _ sheet (ex_intro _ ruler_width (ex_intro _ (fun _ => of_Z 5) (ex_intro _ snd (conj sheet_printer (conj sheet_places (conj (fun _ => eq_refl) below_frame))))))).
Qed.
Print Assumptions C106_float_refuted.
