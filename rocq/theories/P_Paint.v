(** Property C108: everything a document draws, in order. Proofs are in PaintThms.v, concrete
    cases in PaintWit.v, specifications in PaintSpec.v. [places] and [page_stable] are laws of the
    engine: coordinates set are read back unless negative, fonts and colours move nothing;
    changing the font does not change the page number. *)
From Coq Require Import QArith Permutation.
From Verif Require Import GoStr Num Style Class Instr Engine Layout LayoutSpec Lines LinesSpec LinesView WriteSpec Proc RefEngine ProcView DrawSpec ProcSpec ProcWit LinesWit WriteThms OutputSpec OutputThms PaintSpec PaintThms PaintWit.
Local Open Scope nat_scope.

(** C108: a document processed to the end has drawn its texts, boxes, images and table cells in
    the order of the document, each once, and nothing else: of a box or cell first the background,
    then the border, then the text; the boxes and images of a cell after its text; an image
    whose file cannot be read not at all. *)
Theorem C108_document : forall (F : Num) (env : Env F) (eng : Engine F), places eng -> page_stable (eng:=eng) ->
  (forall l, Permutation (e_shuffle env l) l) ->
  forall depth e r (s' : PS F eng), process env depth e = Ok r s' ->
  forall p, new_pen p -> draws_all env (e_body env) (seen p (ps_trace s')).
Proof. exact (fun F env eng Hp Hs Hsh depth e r s' H p N => proj1 (process_draws env Hp Hs Hsh depth e r s' H p N)). Qed.
Print Assumptions C108_document.
Example C108_laws : places RefEngine /\ page_stable (eng:=RefEngine).
Proof. split; [exact ref_places|exact ref_stable]. Qed.
(** A box, images, one of them missing, and a table with a cell containing an image and a box. *)
Example C108_example : new_pen first_pen /\
  match ref_doc [plain_text] [] [IBox no_style [ITextBlock ($"a b")]; IImage no_style ($"one"); IImage no_style ($"missing");
      ITable (XTable no_style 0 [XRow no_style [XCell no_style 1 1 [IImage no_style ($"two"); ITextBlock ($"c"); IBox no_style [ITextBlock ($"d")]]; XCell no_style 1 1 [ITextBlock ($"e")]]]); IText no_style [ITextBlock ($"f")]] with
  | Ok None s' => map kind (seen first_pen (ps_trace s')) =
      [$"(background)"; $"(border)"; $"a"; $"b"; $"(image one)"; $"(background)"; $"(border)"; $"c"; $"(image two)"; $"(background)"; $"(border)"; $"d"; $"(background)"; $"(border)"; $"e"; $"f"]
  | _ => False end.
Proof. vm_compute. split; reflexivity. Qed.

(** C108: the same holds for each time the header or footer is called, also in the middle of
    drawing the header or footer of another page. *)
Theorem C108_header_footer : forall (F : Num) (env : Env F) (eng : Engine F), places eng -> page_stable (eng:=eng) ->
  (forall l, Permutation (e_shuffle env l) l) ->
  forall depth e r (s' : PS F eng), process env depth e = Ok r s' ->
  forall p, new_pen p -> forall c q sub, call_with p (ps_trace s') c q sub ->
  draws_all env (match c with Header => e_header env | Footer => e_footer env end) (seen q sub).
Proof. exact (fun F env eng Hp Hs Hsh depth e r s' H p N => proj2 (process_draws env Hp Hs Hsh depth e r s' H p N)). Qed.
Print Assumptions C108_header_footer.
Example C108_header_example : exists (s' : PS NumQ RefEngine) q sub,
  ref_doc [IImage no_style ($"logo"); IText no_style [ITextBlock ($"a b")]] [] [] = Ok None s' /\ call_with first_pen (ps_trace s') Header q sub /\
  map kind (seen q sub) = [$"(image logo)"; $"a"; $"b"].
Proof. exact header_drawn. Qed.
