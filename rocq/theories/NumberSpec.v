(** Specification of the page numbers that are printed (C103). *)
From Verif Require Import GoStr Num Style Class Instr Engine Lines LinesSpec LinesView Proc OutputSpec Fpdf.

(** Engines that number their pages: only beginning a page changes the number, by one, before the
    header is called; footers are called before that. [paged n p]: what an engine call does
    that finds the page number [n]; a callback may leave another number. *)
Fixpoint paged {F : Num} {eng : Engine F} (n : Z) (p : eprog (est eng)) : Prop :=
  match p with
  | EDone e => currentPage e = n
  | ECall c e k => currentPage e = (match c with Header => n + 1 | Footer => n end)%Z /\ forall e', paged (currentPage e') (k e')
  end.
Record numbers_pages {F : Num} (eng : Engine F) : Prop := mkNumbers {
  N_simple : forall c (e : est eng), currentPage (simple c e) = currentPage e;
  N_page : forall e : est eng, paged (currentPage e) (addPage e);
  N_write : forall t (e : est eng), paged (currentPage e) (Engine.writeText t e);
  N_pdf : forall e : est eng, paged (currentPage e) (writePDF e)
}.

Section Number.
Context {F : Num} (env : Env F).
(** The number of the page after an engine call, one more for every header called. Only AddPage,
    WriteText and WritePDF call headers. *)
Fixpoint page_after (n : Z) (e : event F) : Z :=
  match e with
  | Ev (Simple _) _ => n
  | Ev _ calls =>
    (fix go (n : Z) (calls : list (cb * list (event F))) : Z :=
       match calls with
       | [] => n
       | (c, sub) :: calls' =>
           go ((fix all (n : Z) (evs : list (event F)) : Z := match evs with [] => n | e' :: evs' => all (page_after n e') evs' end)
                 (match c with Header => n + 1 | Footer => n end)%Z sub) calls'
       end) n calls
  end.
Definition pages_after (n : Z) (evs : list (event F)) : Z := fold_left page_after evs n.
Definition page_in (c : cb) (n : Z) : Z := match c with Header => (n + 1)%Z | Footer => n end.

(** The texts written by a list of engine calls, beginning on page [n]: with the number of the
    page when the call was made, and of the page printed on (the engine may begin a page before
    it prints). *)
Record entry := mkEntry { asked_on : Z; printed_on : Z; en_text : bytes }.
Fixpoint page_log (n : Z) (evs : list (event F)) : list entry :=
  match evs with
  | [] => []
  | e :: evs' => match ev_cmd e with WriteText t => [mkEntry n (page_after n e) t] | _ => [] end ++ page_log (page_after n e) evs'
  end.
(** The callbacks with the number of their page. *)
Inductive call_on : Z -> list (event F) -> cb -> Z -> list (event F) -> Prop :=
| O_later : forall n e evs c m sub, call_on (page_after n e) evs c m sub -> call_on n (e :: evs) c m sub
| O_now : forall n cmd calls evs c m sub, called_on n calls c m sub -> call_on n (Ev cmd calls :: evs) c m sub
with called_on : Z -> list (cb * list (event F)) -> cb -> Z -> list (event F) -> Prop :=
| O_this : forall n calls c sub, called_on n ((c, sub) :: calls) c (page_in c n) sub
| O_deep : forall n calls c sub c' m sub', call_on (page_in c n) sub c' m sub' -> called_on n ((c, sub) :: calls) c' m sub'
| O_next : forall n calls c sub c' m sub', called_on (pages_after (page_in c n) sub) calls c' m sub' -> called_on n ((c, sub) :: calls) c' m sub'.

(** Every word shows the number of the page it is printed on (texts other than block text). *)
Definition numbered_own (sty : Styles F) (iss : list (instr F)) (o : list entry) : Prop :=
  beqb (HAlign (SAlign sty)) ($"block") = false ->
  forall i q, nth_error o i = Some q -> nth_error (words env (printed_on q) sty iss) i = Some (unspaced (en_text q)).
(** All words show the number of the page on which the first one was asked for. *)
Definition numbered_first (sty : Styles F) (iss : list (instr F)) (o : list entry) : Prop :=
  exists page, text_out_on env page sty iss (map en_text o) /\ forall q o', o = q :: o' -> asked_on q = page.
(** If nothing else begins a page in between: the words of the text with the number of the page
    they are printed on. *)
Definition numbered_here (sty : Styles F) (iss : list (instr F)) (o : list entry) : Prop :=
  forall q, In q o -> text_out_on env (printed_on q) sty iss (map en_text o).
Definition numbers_texts (numbered : Styles F -> list (instr F) -> list entry -> Prop) (iss : list (instr F)) (n : Z) (evs : list (event F)) : Prop :=
  exists ls outs, Forall2 (shows env) iss ls /\
    Forall2 (fun p o => numbered (fst p) (snd p) o) (List.concat ls) outs /\ page_log n evs = List.concat outs.
End Number.

(** The library gofpdf as its documentation and source have it: PageNo "returns the current page
    number"; AddPage runs the footer of the page, if there is one, adds one, and runs the header;
    Write may do the same in between; Output runs the footer of the last page. [pdf_paged]: as
    [paged] above. *)
Fixpoint pdf_paged {F : Num} (pdf : Pdf F) (n : Z) (p : eprog (pst _ pdf)) : Prop :=
  match p with
  | EDone e => pageNo _ pdf e = n
  | ECall c e k => pageNo _ pdf e = (match c with Header => n + 1 | Footer => n end)%Z /\ forall e', pdf_paged pdf (pageNo _ pdf e') (k e')
  end.
Definition keeps_no {F : Num} (pdf : Pdf F) (f : pst _ pdf -> pst _ pdf) : Prop := forall e, pageNo _ pdf (f e) = pageNo _ pdf e.
Record gofpdf_pages {F : Num} (pdf : Pdf F) : Prop := mkGofpdfPages {
  GP_funcs : keeps_no pdf (setHeaderFunc _ pdf) /\ keeps_no pdf (setFooterFunc _ pdf) /\ forall s, keeps_no pdf (aliasNbPages _ pdf s);
  GP_move : (forall x, keeps_no pdf (pdfSetX _ pdf x)) /\ (forall x y, keeps_no pdf (setXY _ pdf x y)) /\ forall h, keeps_no pdf (ln _ pdf h);
  GP_font : forall family style size, keeps_no pdf (setFont _ pdf family style size);
  GP_image : forall src x y w h, keeps_no pdf (imageOptions _ pdf src x y w h);   (* flow = false *)
  GP_colours : forall r g b, keeps_no pdf (pdfSetTextColor _ pdf r g b) /\ keeps_no pdf (pdfSetDrawColor _ pdf r g b) /\ keeps_no pdf (pdfSetFillColor _ pdf r g b);
  GP_line : forall w, keeps_no pdf (pdfSetLineWidth _ pdf w);
  GP_draw : (forall x y w h s, keeps_no pdf (rect _ pdf x y w h s)) /\ (forall x y, keeps_no pdf (pdfMoveTo _ pdf x y)) /\
            (forall x y, keeps_no pdf (pdfLineTo _ pdf x y)) /\ forall s, keeps_no pdf (pdfDrawPath _ pdf s);
  GP_page : forall e, pdf_paged pdf (pageNo _ pdf e) (pdfAddPage _ pdf e);
  GP_write : forall h s e, pdf_paged pdf (pageNo _ pdf e) (write _ pdf h s e);
  GP_output : forall e, pdf_paged pdf (pageNo _ pdf e) (output _ pdf e)
}.
