(** Properties of the output of documents as a whole (C89, C90): the theorems, each with a
    concrete case of its hypotheses. Proofs are in OutputThms.v, specifications in OutputSpec.v.
    [places] and [page_stable] are laws of the engine: coordinates set are read back unless
    negative, fonts and colours move
    nothing; changing the font does not change the page number. *)
From Coq Require Import QArith Permutation.
From Verif Require Import GoStr Num Style Class Instr Engine Lines LinesSpec LinesView WriteSpec Proc RefEngine ProcView DrawSpec ProcSpec ProcWit LinesWit WriteThms OutputSpec OutputThms.
Local Open Scope nat_scope.

(** C89: a document processed to the end has written the words of all its texts, boxes and table
    cells, in the order of the document, and nothing else. *)
Theorem C89_document : forall (F : Num) (env : Env F) (eng : Engine F), places eng -> page_stable (eng:=eng) ->
  (forall l, Permutation (e_shuffle env l) l) ->
  forall depth e r (s' : PS F eng), process env depth e = Ok r s' ->
  writes_texts env (e_body env) (written (ps_trace s')).
Proof. exact (fun F env eng Hp Hs Hsh depth e r s' H => proj1 (process_says env Hp Hs Hsh depth e r s' H)). Qed.
Print Assumptions C89_document.
Example C89_laws : places RefEngine /\ page_stable (eng:=RefEngine).
Proof. split; [exact ref_places|exact ref_stable]. Qed.
(** A text, a paragraph that is no text, a box and a table with a cell
    containing a box. *)
Example C89_example :
  match ref_doc [plain_text] [] [IText no_style [ITextBlock ($"a b"); IParagraph no_style ($"c")]; ITextBlock ($"lost"); IBox no_style [ITextBlock ($"d")];
      ITable (XTable no_style 0 [XRow no_style [XCell no_style 1 1 [ITextBlock ($"e")]; XCell no_style 1 1 [ITextBlock ($"f"); IBox no_style [ITextBlock ($"g")]]]])] with
  | Ok None s' => map unspaced (written (ps_trace s')) = [$"a"; $"b"; $"c"; $"d"; $"e"; $"f"; $"g"]
  | _ => False end.
Proof. vm_compute. reflexivity. Qed.

(** C90: on whatever page the header or footer is called, also in the middle of drawing the
    header or footer of another page, it writes the words of its own texts, and nothing else. *)
Theorem C90_header_footer : forall (F : Num) (env : Env F) (eng : Engine F), places eng -> page_stable (eng:=eng) ->
  (forall l, Permutation (e_shuffle env l) l) ->
  forall depth e r (s' : PS F eng), process env depth e = Ok r s' ->
  forall c sub, call_in (ps_trace s') c sub ->
  writes_texts env (match c with Header => e_header env | Footer => e_footer env end) (written sub).
Proof. exact (fun F env eng Hp Hs Hsh depth e r s' H => proj2 (process_says env Hp Hs Hsh depth e r s' H)). Qed.
Print Assumptions C90_header_footer.
(** Two pages, with the page number in the header. *)
Example C90_example :
  match ref_doc [IText no_style [ITextBlock ($"page {cp}")]] [IText no_style [ITextBlock ($"end")]] [IText no_style [ITextBlock ($"a")]; IPageBreak; IText no_style [ITextBlock ($"b")]] with
  | Ok None s' => map unspaced (written (ps_trace s')) = [$"a"; $"b"] /\
      map (fun p => (fst p, map unspaced (written (snd p)))) (flat_map (fun e => match e with Ev _ calls => calls end) (ps_trace s')) =
      [(Header, [$"page"; $"1"]); (Footer, [$"end"]); (Header, [$"page"; $"2"]); (Footer, [$"end"])]
  | _ => False end.
Proof. vm_compute. split; reflexivity. Qed.
