(** Properties of the PDF engine (C91, C92, C94): the theorems, each with a concrete case of its
    hypotheses. Proofs are in FpdfThms.v, the laws of gofpdf in FpdfSpec.v, a library that obeys
    them in FpdfWit.v; for C94 in CanvasThms.v, CanvasSpec.v and CanvasWit.v. *)
From Coq Require Import QArith Permutation.
From Verif Require Import GoStr Num Style Instr Engine Lines LinesSpec Proc ProcSpec ProcView OutputSpec OutputThms Layout LayoutSpec FontSpec Fpdf FpdfSpec FpdfWit FpdfThms CanvasSpec CanvasWit CanvasThms.
Local Open Scope nat_scope.

(** C91: on any library that behaves as gofpdf is documented, the engine obeys the laws used by the
    properties about drawing: SetX and SetY move one coordinate only (gofpdf's own SetY goes back
    to the left margin), fonts and colours move nothing and stay on the page. *)
Theorem C91_laws : forall (F : Num) (pdf : Pdf F), gofpdf_laws pdf -> places (FPDF F pdf) /\ page_stable (eng:=FPDF F pdf).
Proof. exact (fun F pdf L => conj (pdf_places pdf L) (pdf_stable pdf L)). Qed.
Print Assumptions C91_laws.
Theorem C91_moves : forall (F : Num) (pdf : Pdf F), gofpdf_laws pdf -> forall v (e : est (FPDF F pdf)),
  leb zero v = true -> leb zero (fst (getXY e)) = true ->
  getXY (simple (SetX v) e) = (v, snd (getXY e)) /\ getXY (simple (SetY v) e) = (fst (getXY e), v).
Proof. exact @pdf_moves. Qed.
Print Assumptions C91_moves.
(** So the documents printed to PDF are complete (C89). *)
Theorem C91_documents : forall (F : Num) (env : Env F) (pdf : Pdf F), gofpdf_laws pdf -> (forall l, Permutation (e_shuffle env l) l) ->
  forall depth e r (s' : PS F (FPDF F pdf)), process env depth e = Ok r s' -> writes_texts env (e_body env) (written (ps_trace s')).
Proof. exact (fun F env pdf L Hsh depth e r s' H => proj1 (process_says env (pdf_places pdf L) (pdf_stable pdf L) Hsh depth e r s' H)). Qed.
Print Assumptions C91_documents.
Example C91_example : gofpdf_laws RefPdf /\
  let e : est (FPDF NumQ RefPdf) := mkPS0 1 50%Q 60%Q 12%Q 0%Q in
  getXY (simple (SetY (70%Q : NumQ)) e) = (50, 70)%Q /\ getXY (simple (SetX ((-20)%Q : NumQ)) e) = (190, 60)%Q.
Proof. split; [exact ref_pdf_laws|]. vm_compute. split; reflexivity. Qed.

(** C92: a line feed of [n] goes down by [n] font heights and to the left margin. *)
Theorem C92_feed : forall (F : Num) (pdf : Pdf F), gofpdf_laws pdf -> forall n (e : est (FPDF F pdf)),
  leb zero (mul (fontHeight e) n) = true ->
  getXY (simple (LineFeed n) e) = ((let '(l, _, _, _) := margins e in l), add (snd (getXY e)) (mul (fontHeight e) n)).
Proof. exact @pdf_feed. Qed.
Print Assumptions C92_feed.
(** The printable area is what the margins leave of the page, less 2 mm at the right. *)
Theorem C92_area : forall (pdf : Pdf NumQ) (e : est (FPDF NumQ pdf)),
  let '(l, t, r, b) := margins e in let '(x0, y0, x1, y1) := printableArea e in
  x0 = l /\ y0 = t /\ (x1 + 2 + r == pageWidth e)%Q /\ (y1 + b == pageHeight e)%Q.
Proof. exact pdf_area. Qed.
Print Assumptions C92_area.
(** The width measured is the width
    of what is written. *)
Theorem C92_text : forall (F : Num) (pdf : Pdf F) s (e : est (FPDF F pdf)),
  textWidth e s = getStringWidth F pdf e s /\ Engine.writeText s e = write F pdf (fontHeight e) s e.
Proof. exact @pdf_text. Qed.
Print Assumptions C92_text.
Example C92_example : let e : est (FPDF NumQ RefPdf) := mkPS0 1 50%Q 60%Q 12%Q 5%Q in
  (fst (getXY (simple (LineFeed (2%Q : NumQ)) e)) == 10)%Q /\ (snd (getXY (simple (LineFeed (2%Q : NumQ)) e)) == 60 + 12 * (127 # 180))%Q /\
  (snd (getXY (simple (LineFeed ((-1)%Q : NumQ)) e)) == 65)%Q /\ printableArea e = (10, 10, 198, 287)%Q.
Proof. vm_compute. repeat split. Qed.

(** C94: what the drawing commands paint through the PDF engine is what the drawing machine of
    LayoutSpec.v paints, ... *)
Theorem C94_commands : forall (F : Num) (pdf : Pdf F) (cv : pst F pdf -> canvas F), paints pdf cv ->
  forall cmds (e : est (FPDF F pdf)),
  cv_marks (cv (fold_left (fun e c => simple c e) cmds e)) = cv_marks (cv e) ++ paint (cv_pen (cv e)) (map Simple cmds).
Proof. exact @paints_all. Qed.
Print Assumptions C94_commands.
(** ... so a box appears as its background and a line for each enabled border, ... *)
Theorem C94_box : forall (F : Num) (pdf : Pdf F) (cv : pst F pdf -> canvas F), paints pdf cv ->
  forall x0 y0 x1 y1 sty (s : PS F (FPDF F pdf)), p_segs (cv_pen (cv (ps_eng s))) = [] ->
  cv_marks (cv (ps_eng (snd (drawBox x0 y0 x1 y1 sty s)))) = cv_marks (cv (ps_eng s)) ++
  (let h := LineWidth sty / of_Z 2 in
   let bd := Border (SBox sty) in
   let right := x0 + (x1 - x0) in
   [Filled (Background (SColor sty)) (x0 + h) (y0 + h) (x1 - x0 - of_Z 2 * h) (y1 - y0 - of_Z 2 * h);
    Stroked (LineWidth sty) (Foreground (SColor sty))
      ((if (0 <? QTop bd)%Z then [((x0 - h, y0), (right, y0))] else []) ++
       (if (0 <? QRight bd)%Z then [((right, y0), (right, y1))] else []) ++
       (if (0 <? QBottom bd)%Z then [((right, y1), (x0, y1))] else []) ++
       (if (0 <? QLeft bd)%Z then [((x0, y1), (x0, y0))] else []))])%num.
Proof. exact @box_painted. Qed.
Print Assumptions C94_box.
(** ... an image at the cursor, in its proportions, ... *)
Theorem C94_image : forall (pdf : Pdf NumQ) (cv : pst NumQ pdf -> canvas NumQ), paints pdf cv ->
  forall (env : Env NumQ) st source (pa : PrintableArea NumQ) (s : PS NumQ (FPDF NumQ pdf)) wpx hpx,
  e_image env (e_resolve env source) = Some (wpx, hpx) -> (0 < wpx)%Z -> (0 < hpx)%Z ->
  let d := SDim (e_mut env st (ps_sty s)) in
  (0 < ((pa_x1 pa - pa_x0 pa) - OffsetX d : Q) -> 0 < ((pa_y1 pa - pa_y0 pa) - OffsetY d : Q) ->
  exists x y w h wr hr,
    cv_marks (cv (ps_eng (snd (renderImage env st source pa s)))) = cv_marks (cv (ps_eng s)) ++ [Placed (e_resolve env source) x y w h] /\
    x == fst (getXY (ps_eng s)) + OffsetX d /\ y == snd (getXY (ps_eng s)) + OffsetY d /\
    requested_size wpx hpx (Width d) (Height d) wr hr /\
    fitted wr hr ((pa_x1 pa - pa_x0 pa) - OffsetX d) ((pa_y1 pa - pa_y0 pa) - OffsetY d) w h)%Q.
Proof. exact image_placed. Qed.
Print Assumptions C94_image.
(** ... and texts come in the family, size, colour and registered style asked for. *)
Theorem C94_font : forall (F : Num) (pdf : Pdf F) (cv : pst F pdf -> canvas F), paints pdf cv ->
  forall f st (e : est (FPDF F pdf)), asks (FStyle f) (Weight f) st ->
  exists letters, cv_font (cv (simple (ChangeFont f) e)) = (Family f, letters, PointSize f) /\
    Permutation letters (letters_of st ++ if beqb (Decoration f) ($"underline") then $"U" else $"").
Proof. exact @font_chosen. Qed.
Print Assumptions C94_font.
Theorem C94_text_color : forall (F : Num) (pdf : Pdf F) (cv : pst F pdf -> canvas F), paints pdf cv ->
  forall r g b (e : est (FPDF F pdf)), cv_text (cv (simple (SetTextColor r g b) e)) = mkRGB r g b.
Proof. exact @text_color. Qed.
Print Assumptions C94_text_color.
Example C94_example : paints PaintPdf q_canvas /\ p_segs (cv_pen (q_canvas blank)) = [] /\
  cv_marks (q_canvas (ps_eng (snd (drawBox (eng:=FPDF NumQ PaintPdf) (10%Q : NumQ) 20%Q 30%Q 50%Q lined (initial (eng:=FPDF NumQ PaintPdf) blank))))) =
  [Filled (F:=NumQ) (mkRGB 4 5 6)%Z (22 # 2) (42 # 2) (36 # 2) (56 # 2); Stroked (F:=NumQ) 2 (mkRGB 1 2 3)%Z [((18 # 2, 20), (30, 20)); ((30, 50), (10, 50))]]%Q.
Proof. split; [exact paint_pdf|]. split; [reflexivity|]. vm_compute. reflexivity. Qed.
