(** Properties of the fonts and colours of words (C102): the theorems, each with a concrete case
    of its hypotheses. Proofs are in StyledThms.v, the specification in StyledSpec.v. [places]
    and [page_stable] are laws of the engine, as for C89. *)
From Coq Require Import QArith Permutation.
From Verif Require Import GoStr Num Style Class Instr Engine Lines LinesSpec LinesView Proc RefEngine ProcView ProcSpec ProcWit OutputSpec StyledSpec StyledThms StyledWit.
Local Open Scope nat_scope.

(** C102, refuted: words are not printed in the colour of their element: a red paragraph in a
    text is printed black. *)
Theorem C102_refuted : exists (env : Env NumQ) (s' : PS NumQ RefEngine), process env 1 ref_start = Ok None s' /\
  ~ prints_texts env own_colour (e_body env) (ps_trace s').
Proof. exact (ex_intro _ red_env red_lost). Qed.
Print Assumptions C102_refuted.

(** What holds: the words of a document are printed in the fonts of their elements, and in the
    colour of the text, box or cell they are in. *)
Theorem C102_document_partial : forall (F : Num) (env : Env F) (eng : Engine F), places eng -> page_stable (eng:=eng) ->
  (forall l, Permutation (e_shuffle env l) l) ->
  forall depth e r (s' : PS F eng), process env depth e = Ok r s' ->
  prints_texts env outer_colour (e_body env) (ps_trace s').
Proof. exact (fun F env eng Hp Hs Hsh depth e r s' H => proj1 (process_prints env Hs Hp Hsh depth e r s' H)). Qed.
Print Assumptions C102_document_partial.

(** The same for the headers and footers on all pages. *)
Theorem C102_header_footer_partial : forall (F : Num) (env : Env F) (eng : Engine F), places eng -> page_stable (eng:=eng) ->
  (forall l, Permutation (e_shuffle env l) l) ->
  forall depth e r (s' : PS F eng), process env depth e = Ok r s' ->
  forall c sub, call_in (ps_trace s') c sub ->
  prints_texts env outer_colour (match c with Header => e_header env | Footer => e_footer env end) sub.
Proof. exact (fun F env eng Hp Hs Hsh depth e r s' H => proj2 (process_prints env Hs Hp Hsh depth e r s' H)). Qed.
Print Assumptions C102_header_footer_partial.
Example C102_laws : places RefEngine /\ page_stable (eng:=RefEngine).
Proof. split; [exact ref_places|exact ref_stable]. Qed.
(** A blue text with a large red paragraph, and a plain one after it. *)
Example C102_example :
  match ref_doc [] [] [IText (with_text_color 0 0 255) [ITextBlock ($"a"); IParagraph (mkStyled (st_mutators (with_text_color 255 0 0) ++ st_mutators (with_size 30%Q)) []) ($"b"); ITextBlock ($"c")]; IText no_style [ITextBlock ($"d")]] with
  | Ok None s' => map (fun q : pen NumQ * bytes => (match pen_font (fst q) with Some f => Qred (PointSize f) | None => 0%Q end, pen_color (fst q), unspaced (snd q))) (prints no_pen (ps_trace s')) =
      [(12%Q, Some (mkRGB 0 0 255), $"a"); (30%Q, Some (mkRGB 0 0 255), $"b"); (12%Q, Some (mkRGB 0 0 255), $"c"); (12%Q, Some (mkRGB 0 0 0), $"d")]
  | _ => False end.
Proof. vm_compute. reflexivity. Qed.
