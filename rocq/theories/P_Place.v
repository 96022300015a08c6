(** Properties C98, C99 and C100: where the words of texts, text boxes and table cells are printed. *)
From Coq Require Import QArith.
From Verif Require Import GoStr Num Style Class Instr Engine Layout Table Lines LinesSpec WriteSpec Proc RefEngine ProcSpec ProcView ProcWit LinesWit CellSpec CellWit PlaceSpec PlaceThms PlaceCell FeedThms PlaceWit Fpdf FpdfSpec FpdfWit FpdfThms PdfPrintSpec PdfPrint.
From Verif Require HyphPattern Hyph HyphBuiltin.
Local Open Scope nat_scope.
Local Notation Q := QArith_base.Q.

(** C98: the words of a row lie between the edges of the text, one right of the other (except
    for a word that is wider than the text and alone in its row). *)
Theorem C98_text : forall (eng : Engine NumQ) tw right, printer eng tw right ->
  forall mut callback hyph, (forall w, one_line w -> Forall one_line (hyph w)) ->
  forall iss width (sty : Styles NumQ) (s s' : PS NumQ eng), (forall f, In f (fonts_of mut sty iss) -> regular tw f) -> let x := fst (getXY (ps_eng s)) in
  (0 <= x)%Q -> (x + width <= right)%Q -> In (HAlign (SAlign sty)) [$"left"; $"center"; $"right"; $"block"] ->
  writeTextFnc callback mut hyph sty iss width sty s = Ok tt s' ->
  exists cmds, wrote s s' cmds /\ forall f ox row, In row (rows tw f ox [] cmds) -> fits tw width row -> between tw x (x + width)%Q row.
Proof. exact (fun eng tw right P mut callback hyph => @text_placed eng mut tw right P callback hyph). Qed.
Print Assumptions C98_text.
(** Those of a text box lie inside its padding. *)
Theorem C98_box : forall (env : Env NumQ) (eng : Engine NumQ) callback tw right, printer eng tw right -> places eng ->
  (forall w, one_line w -> Forall one_line (e_hyph env w)) ->
  forall st iss pa (s s' : PS NumQ eng), let sty := e_mut env st (ps_sty s) in let pad := Padding (SBox sty) in
  (forall f, In f (fonts_of (e_mut env) sty iss) -> regular tw f) ->
  In (HAlign (SAlign sty)) [$"left"; $"center"; $"right"; $"block"] ->
  renderTextBox env callback st iss pa s = Ok tt s' ->
  exists before frame text after x0 y0 x1 y1, wrote s s' (before ++ frame ++ text ++ after) /\
    silent before /\ draws_box x0 y0 x1 y1 sty frame /\ silent after /\
    ((0 <= x0 + QLeft pad)%Q -> (x1 - QRight pad <= right)%Q -> forall f ox row, In row (rows tw f ox [] text) ->
       fits tw (x1 - x0 - QLeft pad - QRight pad)%Q row -> between tw (x0 + QLeft pad)%Q (x1 - QRight pad)%Q row).
Proof. exact @box_placed. Qed.
Print Assumptions C98_box.
(** So do those of a table cell. *)
Theorem C98_cell : forall (env : Env NumQ) (eng : Engine NumQ) callback tw right, printer eng tw right -> places eng ->
  (forall w, one_line w -> Forall one_line (e_hyph env w)) ->
  forall pa (x : tcell NumQ) (s s' : PS NumQ eng), let sty := c_sty x in let pad := Padding (SBox sty) in
  (forall f, In f (fonts_of (e_mut env) sty (c_iss x)) -> regular tw f) ->
  In (HAlign (SAlign sty)) [$"left"; $"center"; $"right"; $"block"] -> (forall i, In i (c_iss x) -> text_only i = true) ->
  renderCell env callback pa x s = Ok tt s' ->
  exists frame text after, wrote s s' (frame ++ text ++ after) /\
    draws_box (pa_x0 pa) (pa_y0 pa) (pa_x1 pa) (pa_y1 pa) sty frame /\ silent after /\
    ((0 <= pa_x0 pa + QLeft pad)%Q -> (pa_x1 pa - QRight pad <= right)%Q -> forall f ox row, In row (rows tw f ox [] text) ->
       fits tw (pa_x1 pa - pa_x0 pa - QLeft pad - QRight pad)%Q row -> between tw (pa_x0 pa + QLeft pad)%Q (pa_x1 pa - QRight pad)%Q row).
Proof. exact @cell_placed. Qed.
Print Assumptions C98_cell.
(** The reference engine prints like this, and breaks pages in the meantime. *)
Example C98_laws : forall right, printer RefEngine chars right /\ places RefEngine /\ forall f, regular chars f.
Proof. exact (fun right => conj (ref_printer right) (conj ref_places chars_regular)). Qed.
(** So does the PDF engine, on a library that prints as gofpdf is documented; ... *)
Theorem C98_pdf : forall (pdf : Pdf NumQ) tw right, gofpdf_laws pdf -> gofpdf_prints pdf tw right ->
  printer (FPDF NumQ pdf) (pdf_width tw) right /\ places (FPDF NumQ pdf).
Proof. exact (fun pdf tw right L G => conj (pdf_printer pdf tw right L G) (pdf_places pdf L)). Qed.
Print Assumptions C98_pdf.
(** ... and the hyphenators of the program put no line feeds into words. *)
Theorem C98_hyphenator : forall ed el data pl w parts, HyphPattern.load ed data = HyphPattern.Ok pl -> Hyph.hyphenate el pl w = Some parts ->
  one_line w -> Forall one_line parts.
Proof. exact parts_one_line. Qed.
Print Assumptions C98_hyphenator.
(** Block text of width 10 at 20 on such a library: words of one unit for each letter. *)
Example C98_pdf_example : let tw := fun (_ _ : bytes) (_ : Q) (t : bytes) => inject_Z (Z.of_nat (List.length t)) in
  gofpdf_laws RefPdf /\ gofpdf_prints RefPdf tw 198%Q /\ (forall f, regular (pdf_width tw) f) /\
  match writeTextFnc (eng:=FPDF NumQ RefPdf) (fun _ => ret tt) same_style (fun w => [w]) (aligned ($"block")) [ITextBlock ($"aa bb cc dd")] (10%Q : NumQ) (aligned ($"block"))
          (mkPS (mkPS0 1 20%Q 60%Q 12%Q 0%Q : est (FPDF NumQ RefPdf)) (aligned ($"block")) false []) with
  | Ok tt s' => edges (rows (pdf_width tw) ref_font None [] (map ev_cmd (ps_trace s'))) = [[(Some 20, $"aa"); (Some (479 # 20), $"bb"); (Some (279 # 10), $"cc")]; [(Some 20, $"dd")]; []]%Q
  | _ => False end.
Proof. cbv zeta. split; [exact ref_pdf_laws|]. split; [exact (ref_prints _)|]. split; [exact ref_pdf_regular|]. vm_compute. reflexivity. Qed.
(** Block text of width 10 at 10: the first row is stretched to 99/10 units. *)
Example C98_example :
  match writeTextFnc (eng:=RefEngine) (fun _ => ret tt) same_style (fun w => [w]) (aligned ($"block")) [ITextBlock ($"aa bb cc dd")] (10%Q : NumQ) (aligned ($"block")) ref_state with
  | Ok tt s' => edges (rows chars ref_font None [] (map ev_cmd (ps_trace s'))) = [[(Some 10, $"aa"); (Some (279 # 20), $"bb"); (Some (179 # 10), $"cc")]; [(Some 10, $"dd")]; []]%Q
  | _ => False end.
Proof. vm_compute. reflexivity. Qed.
Example C98_cell_example : let x := demo_cell [ITextBlock ($"aa bbb")] in
  (forall i, In i (c_iss x) -> text_only i = true) /\
  match renderCell (doc_env [] [] [] []) (fun _ => ret tt) demo_area x ref_state with
  | Ok tt s' => edges (rows chars ref_font None [] (map ev_cmd (ps_trace s'))) = [[(Some 12, $"aa")]; [(Some 12, $"bbb")]; []]%Q
  | _ => False end.
Proof. split; [intros i [<-|[]]; reflexivity|vm_compute; reflexivity]. Qed.

(** C99 fails: a right-aligned line ends left of the right edge, and a centred line is left of
    the centre. *)
Theorem C99_refuted : exists row b row' a' b',
  match writeTextFnc (eng:=RefEngine) (fun _ => ret tt) same_style (fun w => [w]) (aligned ($"right")) [ITextBlock ($"aa bb")] (20%Q : NumQ) (aligned ($"right")) ref_state with
  | Ok tt s' => rows chars ref_font None [] (map ev_cmd (ps_trace s')) = [row; []] | _ => False end /\
  row_end chars row = Some b /\ (b < 10 + 20)%Q /\
  match writeTextFnc (eng:=RefEngine) (fun _ => ret tt) same_style (fun w => [w]) (aligned ($"center")) [ITextBlock ($"aa bb")] (20%Q : NumQ) (aligned ($"center")) ref_state with
  | Ok tt s' => rows chars ref_font None [] (map ev_cmd (ps_trace s')) = [row'; []] | _ => False end /\
  row_start row' = Some a' /\ row_end chars row' = Some b' /\ (a' - 10 < 10 + 20 - b')%Q.
Proof. exact not_aligned. Qed.
Print Assumptions C99_refuted.
(** The width of a line is measured with a blank in front of its first word, which is not
    printed: right-aligned lines end this much left of the right edge, and centred lines have
    this much more space on the right. *)
Theorem C99_aligned_partial : forall (eng : Engine NumQ) tw right, printer eng tw right ->
  forall mut callback hyph iss width (sty : Styles NumQ) (s s' : PS NumQ eng), let x := fst (getXY (ps_eng s)) in
  (0 <= x)%Q -> In (HAlign (SAlign sty)) [$"left"; $"center"; $"right"] ->
  writeTextFnc callback mut hyph sty iss width sty s = Ok tt s' ->
  exists cmds, wrote s s' cmds /\ forall f ox row, In row (rows tw f ox [] cmds) -> fits tw width row ->
    exists a b, row_start row = Some a /\ row_end tw row = Some b /\
      (HAlign (SAlign sty) = $"left" -> (a == x)%Q) /\
      (HAlign (SAlign sty) = $"right" -> (b == x + width - blank_before tw row)%Q) /\
      (HAlign (SAlign sty) = $"center" -> (x + width - b == (a - x) + blank_before tw row)%Q).
Proof. exact (fun eng tw right P mut callback hyph => @text_aligned eng mut tw right P callback hyph). Qed.
Print Assumptions C99_aligned_partial.
Example C99_example :
  match writeTextFnc (eng:=RefEngine) (fun _ => ret tt) same_style (fun w => [w]) (aligned ($"right")) [ITextBlock ($"aa bb ccc dd")] (9%Q : NumQ) (aligned ($"right")) ref_state with
  | Ok tt s' => edges (rows chars ref_font None [] (map ev_cmd (ps_trace s'))) = [[(Some 13, $"aa"); (Some 15, $" bb")]; [(Some 12, $"ccc"); (Some 15, $" dd")]; []]%Q
  | _ => False end.
Proof. vm_compute. reflexivity. Qed.

(** C100 fails: a line with a word of 40 points is followed by the next line 18 points below. *)
Theorem C100_refuted : exists line rest,
  match writeTextFnc (eng:=RefEngine) (fun _ => ret tt) (e_mut (doc_env [] [] [] [])) (fun w => [w]) (aligned ($"left")) mixed (20%Q : NumQ) (aligned ($"left")) ref_state with
  | Ok tt s' => feeds ref_font [] (map ev_cmd (ps_trace s')) = line :: rest | _ => False end /\
  (1 <= LineSpacing (SDim (aligned ($"left"))))%Q /\ ~ below (PointSize (F:=NumQ)) line.
Proof. exact not_below. Qed.
Print Assumptions C100_refuted.
(** Every word is on a line that is ended by a line feed of the line spacing of the text, in the
    font of the last word of the line. *)
Theorem C100_feeds_partial : forall (F : Num) (eng : Engine F) (callback : cb -> M eng unit) mut hyph, page_stable (eng:=eng) ->
  forall iss width (sty : Styles F) (s s' : PS F eng), writeTextFnc callback mut hyph sty iss width sty s = Ok tt s' ->
  exists cmds, wrote s s' cmds /\ (forall f0, List.length (flat_map fst (feeds f0 [] cmds)) = texts cmds) /\
  forall f0 row n f, In (row, (n, f)) (feeds f0 [] cmds) ->
    n = LineSpacing (SDim sty) /\ (row <> [] -> exists row', row = row' ++ [f]) /\
    forall f', In f' row -> f' = SFont sty \/ exists st t, In (IParagraph st t) iss /\ f' = SFont (mut st sty).
Proof. exact @text_feeds. Qed.
Print Assumptions C100_feeds_partial.
(** So lines do not overlap if all fonts of the text have the same height and the line spacing
    is 1 or more. *)
Theorem C100_below_partial : forall (eng : Engine NumQ) (callback : cb -> M eng unit) mut hyph (fh : Font NumQ -> Q), page_stable (eng:=eng) ->
  forall iss width (sty : Styles NumQ) (s s' : PS NumQ eng),
  (1 <= LineSpacing (SDim sty))%Q -> (0 <= fh (SFont sty))%Q -> (forall st t, In (IParagraph st t) iss -> fh (SFont (mut st sty)) == fh (SFont sty))%Q ->
  writeTextFnc callback mut hyph sty iss width sty s = Ok tt s' ->
  exists cmds, wrote s s' cmds /\ forall f0 line, In line (feeds f0 [] cmds) -> below fh line.
Proof. exact text_below. Qed.
Print Assumptions C100_below_partial.
Example C100_example :
  match writeTextFnc (eng:=RefEngine) (fun _ => ret tt) (e_mut (doc_env [] [] [] [])) (fun w => [w]) (aligned ($"left")) mixed (20%Q : NumQ) (aligned ($"left")) ref_state with
  | Ok tt s' => map (fun line => (map (PointSize (F:=NumQ)) (fst line), fst (snd line), PointSize (F:=NumQ) (snd (snd line)))) (feeds ref_font [] (map ev_cmd (ps_trace s'))) =
      [([40; 12], 3 # 2, 12); ([12], 3 # 2, 12)]%Q
  | _ => False end.
Proof. vm_compute. reflexivity. Qed.
