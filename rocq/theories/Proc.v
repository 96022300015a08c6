(** Model of process.go, default.go, the drawing part of table.go and image.go. *)
From Verif Require Import GoStr Num Style Class Instr Engine Layout Grid Table Lines.
Local Open Scope num_scope.

Section Default.
Context {F : Num}.
(** default.go:5-42, style/color.go Black and White *)
Definition DefaultStyle : Styles F :=
  mkStyles
    (mkFont ($"Arial") (of_Z 12) ($"normal") ($"normal") ($"normal"))
    (mkBox (mkQuad 0 0 0 0)%Z (mkQuad zero zero zero zero) (mkQuad zero zero zero zero))
    (mkDim (of_Z (-1)) (of_Z (-1)) (of_Z 3 / of_Z 2) zero zero)
    (of_Z (-1))
    (mkAlign ($"left") ($"top"))
    (mkColor (mkRGB 0 0 0) (mkRGB 0 0 0) (mkRGB 255 255 255))
    (of_Z 1).

(** What a Processor is given (process.go:15-33): the document with its classes, the
    hyphenator, and the outside world. *)
Record Env := mkEnv {
  e_mut : Styled F -> Styles F -> Styles F;               (* MutatedStyles(doc.StyleClasses(), _) *)
  e_mut_sel : bytes -> Styled F -> Styles F -> Styles F;  (* MutatedStylesWithSelector *)
  e_hyph : bytes -> list bytes;                           (* hyphenator.Hyphenate *)
  e_resolve : bytes -> bytes;                             (* resolveFile, process.go:35-41 *)
  e_image : bytes -> option (Z * Z);                      (* DescribeImage: pixels, or an error *)
  e_shuffle : boxes -> boxes;                             (* map iteration order in renderGrid *)
  e_header : list (instr F);
  e_footer : list (instr F);
  e_body : list (instr F)
}.
End Default.
Arguments Env : clear implicits.

Section Proc.
Context {F : Num} (env : Env F) {eng : Engine F}.
Local Notation St := (St eng).
Local Notation M := (M eng).
Local Notation Styles := (Styles F).
Local Notation instr := (instr F).
Local Notation mut := (e_mut env).
Local Notation mut_sel := (e_mut_sel env).
Local Notation hyph := (e_hyph env).

(** process.go:100-113 *)
Definition page_now : St (Page F) :=
  let! (x0, y0, x1, y1) := query printableArea in
  let! w := query pageWidth in
  let! h := query pageHeight in
  sret (mkPage w h (mkPA x0 y0 x1 y1)).
(** process.go:115-118 *)
Definition resetStyles : St unit :=
  let! y := get ps_sty in emit (ChangeFont (SFont y)) ;!
  let! y := get ps_sty in set_text_color (TextColor (SColor y)).

Definition p_textHeightFnc := textHeightFnc (eng:=eng) mut hyph.

(** process.go:162-171, 181-189 *)
Definition box_text_height (iss : list instr) (width : F) (sty : Styles) : St F :=
  if Height (SDim sty) <=? zero then
    match iss with
    | [] => query fontHeight
    | _ => p_textHeightFnc sty iss width sty
    end
  else sret (Height (SDim sty)).
Definition box_text_width (pa : PrintableArea F) (sty : Styles) : F :=
  effective_width pa (Width (SDim sty)) - QLeft (Padding (SBox sty)) - QRight (Padding (SBox sty)).
(** process.go:158-173 *)
Definition textBoxHeight (st : Styled F) (iss : list instr) (pa : PrintableArea F) : St F :=
  let! y := get ps_sty in
  let sty := mut st y in
  let! height := box_text_height iss (box_text_width pa sty) sty in
  resetStyles ;!
  sret height.

(** table.go:240-265 *)
Definition assignCellMinHeight (cell : cid) (h : heap F) : St (heap F) :=
  let x := deref h cell in
  if (match c_spannedBy x with Some _ => true | None => false end) || c_zero x then sret h
  else if zero <? Height (SDim (c_sty x)) then
    sret (update cell (with_minHeight (Height (SDim (c_sty x)))) h)                        (* :244-248 *)
  else
    let pad := Padding (SBox (c_sty x)) in
    let availableWidth :=
      fold_left (fun w sc => w + c_width (deref h sc)) (c_spansCols x) (c_width x)
      - (QLeft pad + QRight pad) in                                                        (* :249-253 *)
    let! textHeight := p_textHeightFnc (c_sty x) (c_iss x) availableWidth (c_sty x) in
    let cellHeight := textHeight + QTop pad + QBottom pad in                               (* :257 *)
    let heightPerCell := cellHeight / of_Z (1 + Z.of_nat (List.length (c_spansRows x))) in (* :260 *)
    let h := update cell (with_minHeight heightPerCell) h in
    sret (fold_left (fun h sc => update sc (with_minHeight heightPerCell) h) (c_spansRows x) h).

Fixpoint min_heights (cells : list cid) (h : heap F) : St (heap F) :=
  match cells with
  | [] => sret h
  | c :: cells' => let! h := assignCellMinHeight c h in min_heights cells' h
  end.
(** table.go:268-272 *)
Fixpoint min_heights_rows (rows : list (trow F)) (h : heap F) : St (heap F) :=
  match rows with
  | [] => sret h
  | row :: rows' => let! h := min_heights (r_cells row) h in min_heights_rows rows' h
  end.
(** table.go:274-282 *)
Definition row_min_height (h : heap F) (row : trow F) : F :=
  fold_left (fun m c => let v := c_minHeight (deref h c) in if m <? v then v else m) (r_cells row) zero.
(** table.go:284-288 *)
Definition set_heights (rows : list (trow F)) (h : heap F) : heap F :=
  fold_left (fun h row => fold_left (fun h c => update c (with_height (r_height row)) h) (r_cells row) h) rows h.
(** table.go:267-289 *)
Definition assignHeights (t : table F) (h : heap F) : St (heap F * table F) :=
  let! h := min_heights_rows (t_rows t) h in
  let rows := map (fun row => with_row_height (row_min_height h row) row) (t_rows t) in
  sret (set_heights rows h, mkTable (t_sty t) rows (t_columnCount t)).

(** table.go:291-334; [None] is a panic *)
Definition transformTable (st : Styled F) (xrows : list (xrow F)) : St (option (heap F * table F)) :=
  let! y := get ps_sty in
  let '(h, t) := buildTable mut mut_sel (mut st y) xrows in
  let '(h, t) := processSpans t h in
  let! pg := page_now in
  match assignColumnWidths t (page_effective_width pg (Width (SDim (t_sty t)))) h with
  | None => sret None
  | Some h => let! r := assignHeights t h in sret (Some r)
  end.

(** image.go:50-94 *)
Definition renderImage (st : Styled F) (source : bytes) (pa : PrintableArea F) : St unit :=
  let imgSrc := e_resolve env source in
  match e_image env imgSrc with
  | None => sret tt                                                  (* :54-57, logged *)
  | Some (wpx, hpx) =>
      let! y := get ps_sty in
      let sty := mut st y in
      let! xy := query getXY in
      let '(width, height) := image_size pa sty wpx hpx in
      emit (PutImage imgSrc (fst xy + OffsetX (SDim sty)) (snd xy + OffsetY (SDim sty)) width height)
  end.

Section Rec.
Variable callback : cb -> M unit.
Definition p_writeTextFnc := writeTextFnc callback mut hyph.

(** process.go:147-156 *)
Definition renderText (st : Styled F) (iss : list instr) : M unit :=
  match iss with
  | [] => ret tt
  | _ =>
      let* y := lift (get ps_sty) in
      let sty := mut st y in
      let* pg := lift page_now in
      let width := page_effective_width pg (Width (SDim sty)) in
      p_writeTextFnc sty iss width sty ;;
      lift resetStyles
  end.

(** process.go:175-211 *)
Definition renderTextBox (st : Styled F) (iss : list instr) (pa : PrintableArea F) : M unit :=
  let* y := lift (get ps_sty) in
  let sty := mut st y in
  let pad := Padding (SBox sty) in
  let width := box_text_width pa sty in
  let* height := lift (box_text_height iss width sty) in
  let* xy := lift (query getXY) in                                              (* :191 *)
  let* m := lift (query margins) in                                             (* :192 *)
  let* ph := lift (query pageHeight) in
  let effHeight := ph - (let '(_, _, _, bm) := m in bm) in
  let* prevent := lift (get ps_prevent) in
  let* (x0, y0) :=
    (if negb prevent && (effHeight <=? snd xy + height) then                    (* :194-197 *)
       add_page callback ;; lift (query getXY)
     else ret xy) in
  let x0 := x0 + OffsetX (SDim sty) in                                          (* :199-200 *)
  let y0 := y0 + OffsetY (SDim sty) in
  let y1 := y0 + height + QTop pad + QBottom pad in
  let x1 := x0 + width + QLeft pad + QRight pad in
  lift (drawBox x0 y0 x1 y1 sty) ;;
  lift (emit (SetY (y0 + QTop pad))) ;;
  lift (emit (SetX (x0 + QLeft pad))) ;;
  (match iss with [] => ret tt | _ => p_writeTextFnc sty iss width sty end) ;;
  lift (emit (SetY y1)) ;;
  lift resetStyles.

(** table.go:420-437 *)
Fixpoint cell_boxes (vAlign : bytes) (pa : PrintableArea F) (iss : list instr) : M unit :=
  match iss with
  | [] => ret tt
  | is :: iss' =>
      (match is with
       | IBox st biss =>
           let* height := lift (textBoxHeight st biss pa) in
           lift (if beqb vAlign ($"middle") then emit (SetY (pa_y0 pa + height / of_Z 2))
                 else if beqb vAlign ($"bottom") then emit (SetY (pa_y0 pa + height))
                 else emit (SetY (pa_y0 pa))) ;;
           renderTextBox st biss pa
       | IImage st source =>
           lift (emit (SetY (pa_y0 pa))) ;;
           lift (renderImage st source pa)
       | _ => ret tt
       end) ;;
      cell_boxes vAlign pa iss'
  end.
(** table.go:399-438 *)
Definition renderCell (pa : PrintableArea F) (x : tcell F) : M unit :=
  let sty := c_sty x in
  let pad := Padding (SBox sty) in
  let vAlign := VAlign (SAlign sty) in
  lift (drawBox (pa_x0 pa) (pa_y0 pa) (pa_x1 pa) (pa_y1 pa) sty) ;;
  let padded := with_padding pad pa in
  (match c_iss x with
   | [] => ret tt
   | iss =>
       let* th := lift (textHeight mut iss (pa_width padded) sty) in             (* :404 *)
       let textMargin := pa_height padded - th in
       lift (if beqb vAlign ($"middle") then emit (SetY (pa_y0 padded + textMargin / of_Z 2))
             else if beqb vAlign ($"bottom") then emit (SetY (pa_y0 padded + textMargin))
             else emit (SetY (pa_y0 padded))) ;;
       lift (emit (SetX (pa_x0 padded))) ;;
       p_writeTextFnc sty iss (pa_width pa - QLeft pad - QRight pad) sty         (* :416 *)
   end) ;;
  lift (emit (SetX (pa_x0 padded))) ;;                                           (* :419 *)
  cell_boxes vAlign padded (c_iss x).

(** table.go:350-363 *)
Fixpoint render_cells (h : heap F) (cells : list cid) (x y : F) : M unit :=
  match cells with
  | [] => ret tt
  | c :: cells' =>
      let cell := deref h c in
      (if (match c_spannedBy cell with Some _ => true | None => false end) || c_zero cell then ret tt
       else
         let '(cw, ch) := cell_dim h c in
         renderCell (mkPA x y (x + cw) (y + ch)) cell) ;;
      render_cells h cells' (x + c_width cell) y
  end.
(** table.go:348-366: returns the new value of y *)
Definition renderRow (h : heap F) (x0 y : F) (row : trow F) : M F :=
  render_cells h (r_cells row) x0 y ;;
  lift (emit (SetX x0)) ;;
  ret (y + r_height row).

(** table.go:387-391: the remaining [n] header rows, from row [i] on *)
Fixpoint repeat_header (h : heap F) (rows : list (trow F)) (x0 : F) (n i : nat) (y : F) : M F :=
  match n with
  | O => ret y
  | S n' =>
      let* y := match nth_error rows i with
                | Some row => renderRow h x0 y row
                | None => ret y
                end in
      repeat_header h rows x0 n' (S i) y
  end.
(** table.go:382-395: [rest] are the rows from index [i] on *)
Fixpoint render_rows (h : heap F) (rows : list (trow F)) (repeatHeader : Z) (x0 bottom : F) (i : nat) (rest : list (trow F)) (y : F) : M F :=
  match rest with
  | [] => ret y
  | row :: rest' =>
      let* prevent := lift (get ps_prevent) in
      let* y :=
        (if negb prevent && (bottom <? y + maxCellHeight h row) then
           add_page callback ;;
           let* xy := lift (query getXY) in
           if (0 <? i)%nat && (0 <? repeatHeader)%Z then repeat_header h rows x0 (Z.to_nat repeatHeader) 0 (snd xy)
           else ret (snd xy)
         else ret y) in
      let* y := renderRow h x0 y row in
      render_rows h rows repeatHeader x0 bottom (S i) rest' y
  end.
(** table.go:370-375; RepeatHeader+1 wraps around for the largest int, which is not modelled (from
    files it is at most 10) *)
Definition head_height (h : heap F) (rows : list (trow F)) (repeatHeader : Z) : F :=
  fold_left (fun v i => match nth_error rows i with Some row => v + maxCellHeight h row | None => v end)
    (seq 0 (Z.to_nat (repeatHeader + 1))) zero.
(** table.go:338-397 *)
Definition renderTable (xt : xtable F) : M unit :=
  let '(XTable st repeatHeader xrows) := xt in
  let* r := lift (transformTable st xrows) in
  match r with
  | None => fun _ => Panic
  | Some (h, t) =>
      if Nat.eqb (t_columnCount t) 0 then lift resetStyles                       (* :341-343 *)
      else
        let* pg := lift page_now in
        let bottom := pa_y1 (pg_area pg) in
        let* (x0, y) := lift (query getXY) in
        let* prevent := lift (get ps_prevent) in
        let* y :=
          (if negb prevent && (bottom <? y + head_height h (t_rows t) repeatHeader) then   (* :369-380 *)
             add_page callback ;; let* xy := lift (query getXY) in ret (snd xy)
           else ret y) in
        let* y := render_rows h (t_rows t) repeatHeader x0 bottom 0 (t_rows t) y in
        lift (emit (SetY y)) ;;
        lift resetStyles
  end.

(** process.go:122-143 *)
Definition processInstruction (i : instr) : M unit :=
  match i with
  | IFont st => let* y := lift (get ps_sty) in lift (changeFont (SFont (mut st y)))
  | ILineFeed lines => lift (emit (LineFeed lines))
  | ISetX x => lift (emit (SetX x))
  | ISetY y => lift (emit (SetY y))
  | IBox st iss => let* pg := lift page_now in renderTextBox st iss (pg_area pg)
  | IText st iss => renderText st iss
  | ITable xt => renderTable xt
  | IImage st source => let* pg := lift page_now in lift (renderImage st source (pg_area pg))
  | IGrid _ rows _ => match render_grid (e_shuffle env) (map gr_areas rows) with GPanic => fun _ => Panic | _ => ret tt end
  | IPageBreak => add_page callback
  | _ => ret tt
  end.
(** process.go:120-145 *)
Fixpoint processInstructions (iss : list instr) : M unit :=
  match iss with
  | [] => ret tt
  | i :: iss' => processInstruction i ;; processInstructions iss'
  end.

(** process.go:53-62 and 63-72: the functions registered for header and footer *)
Definition run_callback (c : cb) : M unit :=
  let* xy := lift (query getXY) in
  lift (modify (set_prevent true)) ;;
  processInstructions (match c with Header => e_header env | Footer => e_footer env end) ;;
  lift (emit (SetX (fst xy))) ;;
  lift (emit (SetY (snd xy))) ;;
  lift (modify (set_prevent false)).

(** process.go:43-89 Process; the result is the error, if any *)
Definition process_body : M (option bytes) :=
  lift (emit (SetPageCountAlias ($"{np}"))) ;;
  lift (emit OnHeader) ;;
  lift (emit OnFooter) ;;
  let* y := lift (get ps_sty) in
  lift (changeFont (SFont y)) ;;
  add_page callback ;;
  processInstructions (e_body env) ;;
  let* err := lift (query engError) in
  match err with
  | Some e => ret (Some e)
  | None => write_pdf callback ;; lift (query writeResult)
  end.
End Rec.

(** Callbacks nested at most [depth] deep. *)
Fixpoint callbacks (depth : nat) (c : cb) : M unit :=
  match depth with
  | O => fun _ => Diverge
  | S d => run_callback (callbacks d) c
  end.
(** process.go:24-33 NewProcessor *)
Definition initial (e : est eng) : PS F eng := mkPS e DefaultStyle false [].
(** Process, with callbacks nested at most [depth] deep. *)
Definition process (depth : nat) (e : est eng) : res eng (option bytes) :=
  process_body (callbacks depth) (initial e).
End Proc.
