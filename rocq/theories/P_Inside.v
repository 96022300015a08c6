(** Property C106: at which heights the words of text boxes and table cells are printed. Proofs are
    in InsideThms.v, concrete cases in InsideWit.v, specifications in InsideSpec.v. *)
From Coq Require Import QArith.
From Verif Require Import GoStr Num Style Class Instr Engine Layout Table Lines Proc RefEngine Font Fpdf FpdfSpec FpdfWit FpdfThms WriteSpec ProcView ProcSpec ProcWit TableView TableWit CellSpec CellWit PlaceSpec PlaceWit PdfPrintSpec PdfPrint InsideSpec InsideThms InsideWit.
Local Open Scope nat_scope.
Local Notation Q := QArith_base.Q.

(** C106: the words of a text box without a height of its own lie inside its padding, from top to
    bottom, if its fonts have the same height. *)
Theorem C106_box : forall (env : Env NumQ) (eng : Engine NumQ) callback tw fh, metrics eng tw fh -> places eng ->
  forall hgt st iss pa (s s' : PS NumQ eng), let sty := e_mut env st (ps_sty s) in let pad := Padding (SBox sty) in
  (Height (SDim sty) <= 0)%Q -> (forall i, In i iss -> cp_free i) -> (0 <= LineSpacing (SDim sty) * hgt)%Q ->
  (forall f, In f (SFont sty :: fonts_of (e_mut env) sty iss) -> (fh f == hgt)%Q) ->
  renderTextBox env callback st iss pa s = Engine.Ok tt s' ->
  exists before frame text after x0 y0 x1 y1, wrote s s' (before ++ frame ++ text ++ after) /\
    silent before /\ draws_box x0 y0 x1 y1 sty frame /\ silent after /\
    ((0 <= y0 + QTop pad)%Q -> Forall (inside hgt (y0 + QTop pad)%Q (y1 - QBottom pad)%Q) (tops hgt None text)).
Proof. exact @box_inside. Qed.
Print Assumptions C106_box.
(** Those of a cell lie inside the padding of the cell as the table was laid out. *)
Theorem C106_cell : forall (env : Env NumQ) (eng : Engine NumQ) callback tw fh, metrics eng tw fh -> places eng ->
  forall hgt st xrows (s0 s0' : PS NumQ eng) h t, transformTable env st xrows s0 = (Some (h, t), s0') ->
  forall c, In c (flat_map r_cells (t_rows t)) -> authored h c = true -> forall X Y (s s' : PS NumQ eng),
  let x := deref h c in let sty := c_sty x in let pad := Padding (SBox sty) in let W := fst (cell_dim h c) : Q in let V := snd (cell_dim h c) : Q in
  (Height (SDim sty) <= 0)%Q -> (forall i, In i (c_iss x) -> text_only i = true /\ cp_free i) -> (0 <= LineSpacing (SDim sty) * hgt)%Q ->
  (forall f, In f (SFont sty :: fonts_of (e_mut env) sty (c_iss x)) -> (fh f == hgt)%Q) ->
  (HAlign (SAlign sty) = $"block" -> ~ In (VAlign (SAlign sty)) [$"middle"; $"bottom"]) ->
  (0 <= Y + QTop pad)%Q ->
  renderCell env callback (mkPA (F:=NumQ) X Y (X + W)%Q (Y + V)%Q) x s = Engine.Ok tt s' ->
  exists cmds, wrote s s' cmds /\ cell_printed hgt X Y (X + W)%Q (Y + V)%Q sty cmds.
Proof. exact @cell_inside. Qed.
Print Assumptions C106_cell.
(** So do those of all cells of a row. *)
Theorem C106_row : forall (env : Env NumQ) (eng : Engine NumQ) callback tw fh, metrics eng tw fh -> places eng ->
  forall hgt st xrows (s0 s0' : PS NumQ eng) h t, transformTable env st xrows s0 = (Some (h, t), s0') ->
  forall row, In row (t_rows t) -> forall X Y Y' (s s' : PS NumQ eng),
  (forall c, In c (r_cells row) -> authored h c = true -> plain_cell (e_mut env) fh hgt (deref h c) /\ (0 <= Y + QTop (Padding (SBox (c_sty (deref h c)))))%Q) ->
  renderRow env callback h (X : NumQ) (Y : NumQ) row s = Engine.Ok Y' s' ->
  exists parts, wrote s s' (List.concat parts ++ [Simple (SetX (F:=NumQ) X)]) /\
    Forall2 (fun c part => exists x, cell_printed hgt x Y (x + fst (cell_dim h c))%Q (Y + snd (cell_dim h c))%Q (c_sty (deref h c)) part) (filter (authored h) (r_cells row)) parts.
Proof. exact @row_inside. Qed.
Print Assumptions C106_row.
Example C106_laws : metrics RefEngine chars (fun f => PointSize f) /\ places RefEngine.
Proof. split; [exact ref_metrics|exact ref_places]. Qed.
(** The PDF engine measures like this. *)
Theorem C106_pdf : forall (pdf : Pdf NumQ) tw right, gofpdf_laws pdf -> gofpdf_prints pdf tw right -> gofpdf_sizes pdf ->
  metrics (FPDF NumQ pdf) (pdf_width tw) pdf_height /\ places (FPDF NumQ pdf).
Proof. exact (fun pdf tw right L G Z => conj (pdf_metrics pdf tw right L G Z) (pdf_places pdf L)). Qed.
Print Assumptions C106_pdf.
Example C106_pdf_laws : gofpdf_laws RefPdf /\ gofpdf_prints RefPdf (fun _ _ _ t => inject_Z (Z.of_nat (List.length t))) 198%Q /\ gofpdf_sizes RefPdf.
Proof. split; [exact ref_pdf_laws|]. split; [exact (ref_prints _)|exact ref_sizes]. Qed.
(** A row from 20 to 68: two lines of height 12 at the bottom of a cell with padding 2, beside
    three lines. *)
Example C106_example : match transformTable (doc_env [] [] [] []) no_style low_rows ref_state with
  | (Some (h, t), _) => forallb (authored h) (flat_map r_cells (t_rows t)) = true /\
      Forall (fun c => plain_cell (e_mut (doc_env [] [] [] [])) (fun f => PointSize f) 12%Q (deref h c)) (flat_map r_cells (t_rows t)) /\
      match t_rows t with
      | [row] => match renderRow (doc_env [] [] [] []) (fun _ => ret tt) h (10%Q : NumQ) (20%Q : NumQ) row ref_state with
        | Engine.Ok y s' => Qred y = 68%Q /\ map (fun p => (option_map Qred (fst p), snd p)) (tops 12%Q None (map ev_cmd (ps_trace s'))) =
            [(Some 36, $"aaaa"); (Some 54, $"bbbb"); (Some 20, $"x"); (Some 38, $"y"); (Some 56, $"z")]%Q
        | _ => False end
      | _ => False end
  | _ => False end.
Proof. exact low_printed. Qed.
Example C106_box_example :
  match renderTextBox (doc_env [] [] [] []) (fun _ => ret tt) (mkStyled (F:=NumQ) [] []) [ITextBlock ($"aaaa"); ILineBreak; ITextBlock ($"bbbb")] demo_area ref_state with
  | Engine.Ok tt s' => map (fun p => (option_map Qred (fst p), snd p)) (tops 12%Q None (map ev_cmd (ps_trace s'))) = [(Some 10, $"aaaa"); (Some 28, $"bbbb")]%Q
  | _ => False end.
Proof. vm_compute. reflexivity. Qed.
