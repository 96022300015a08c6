(** Properties of the page numbers that are printed (C103): the theorems, each with a concrete
    case of its hypotheses. Proofs are in NumberThms.v, the specification in NumberSpec.v.
    [places], [page_stable] and [numbers_pages] are laws of the engine. *)
From Coq Require Import QArith Permutation.
From Verif Require Import GoStr Num Style Class Instr Engine Lines LinesSpec LinesView Proc RefEngine ProcView DrawSpec ProcSpec ProcWit OutputSpec Fpdf FpdfSpec FpdfThms FpdfWit NumberSpec NumberThms NumberWit.
Local Open Scope nat_scope.

(** C103, refuted: a text that the engine moves to the next page shows the number of the page
    before: "1" on page 2. *)
Theorem C103_refuted : exists (env : Env NumQ) (s' : PS NumQ RefEngine), process env 1 ref_start = Ok None s' /\
  page_log 0 (ps_trace s') = [mkEntry 1 2 ($"1")] /\ ~ numbers_texts env (numbered_own env) (e_body env) 0 (ps_trace s').
Proof. exact (ex_intro _ low_env number_behind). Qed.
Print Assumptions C103_refuted.

(** What holds: the page number shown in a text, on all its lines, is that of the page on which
    its first word was asked for. *)
Theorem C103_document_partial : forall (F : Num) (env : Env F) (eng : Engine F), places eng -> page_stable (eng:=eng) -> numbers_pages eng ->
  (forall l, Permutation (e_shuffle env l) l) ->
  forall depth e r (s' : PS F eng), process env depth e = Ok r s' ->
  numbers_texts env (numbered_first env) (e_body env) (currentPage e) (ps_trace s').
Proof. exact (fun F env eng Hp Hs Hn Hsh depth e r s' H => proj1 (process_numbers env Hs Hn Hp Hsh depth e r s' H)). Qed.
Print Assumptions C103_document_partial.

(** The same for the headers and footers on all pages, *)
Theorem C103_header_footer_partial : forall (F : Num) (env : Env F) (eng : Engine F), places eng -> page_stable (eng:=eng) -> numbers_pages eng ->
  (forall l, Permutation (e_shuffle env l) l) ->
  forall depth e r (s' : PS F eng), process env depth e = Ok r s' ->
  forall c n sub, call_on (currentPage e) (ps_trace s') c n sub ->
  numbers_texts env (numbered_first env) (match c with Header => e_header env | Footer => e_footer env end) n sub.
Proof. exact (fun F env eng Hp Hs Hn Hsh depth e r s' H => proj2 (process_numbers env Hs Hn Hp Hsh depth e r s' H)). Qed.
Print Assumptions C103_header_footer_partial.

(** and if a header or footer begins no page itself, it shows the number of its own page. *)
Theorem C103_header_footer : forall (F : Num) (env : Env F) (eng : Engine F), places eng -> page_stable (eng:=eng) -> numbers_pages eng ->
  (forall l, Permutation (e_shuffle env l) l) ->
  forall depth e r (s' : PS F eng), process env depth e = Ok r s' ->
  forall c n sub, call_on (currentPage e) (ps_trace s') c n sub -> pages_after n sub = n ->
  numbers_texts env (numbered_here env) (match c with Header => e_header env | Footer => e_footer env end) n sub.
Proof. exact (fun F env eng Hp Hs Hn Hsh depth e r s' H => callbacks_here env Hs Hn Hp Hsh depth e r s' H). Qed.
Print Assumptions C103_header_footer.
Example C103_laws : places RefEngine /\ page_stable (eng:=RefEngine) /\ numbers_pages RefEngine.
Proof. split; [exact ref_places|]. split; [exact ref_stable|exact ref_numbers]. Qed.
(** A text of two words at the end of a page, and one after it. *)
Example C103_example :
  match ref_doc [] [] [ISetY (65%Q : NumQ); IText no_style [ITextBlock ($"{cp}"); IParagraph (with_size 30%Q) ($"{cp}")]; IText no_style [ITextBlock ($"{cp}")]] with
  | Ok None s' => map (fun q => (asked_on q, printed_on q, unspaced (en_text q))) (page_log 0 (ps_trace s')) = [(1%Z, 1%Z, $"1"); (1%Z, 2%Z, $"1"); (2%Z, 2%Z, $"2")]
  | _ => False end.
Proof. vm_compute. reflexivity. Qed.
(** A header that shows the page number. *)
Example C103_header_example : exists (s' : PS NumQ RefEngine) sub, ref_doc [IText no_style [ITextBlock ($"page {cp}")]] [] [] = Ok None s' /\
  call_on 0 (ps_trace s') Header 1 sub /\ pages_after 1 sub = 1%Z /\ map unspaced (written sub) = [$"page"; $"1"].
Proof. exact header_on_one. Qed.

(** The PDF engine numbers its pages as the library does. *)
Theorem C103_pdf : forall (F : Num) (pdf : Pdf F), gofpdf_pages pdf -> numbers_pages (FPDF F pdf).
Proof. exact fpdf_numbers. Qed.
Print Assumptions C103_pdf.
Example C103_pdf_example : gofpdf_pages RefPdf.
Proof. exact ref_pdf_pages. Qed.
