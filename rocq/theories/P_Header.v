(** Property C109: headers and footers on different pages. Proofs are in HeaderThms.v, concrete
    cases in HeaderWit.v, specifications in HeaderSpec.v. [places] and [page_stable] are laws of
    the engine, as for C89. *)
From Coq Require Import QArith Permutation.
From Verif Require Import GoStr Num Style Class Instr Engine Lines LinesSpec LinesView Proc RefEngine ProcView ProcSpec ProcWit OutputSpec StyledSpec HeaderSpec HeaderThms HeaderWit.
Local Open Scope nat_scope.

(** C109, refuted: a header without page numbers is not printed alike on all pages: a text in
    large letters on the first page makes the header of the second page large. *)
Theorem C109_refuted : exists (env : Env NumQ) (s' : PS NumQ RefEngine) sub1 sub2, process env 2 ref_start = Ok None s' /\
  (forall i, In i (e_header env) -> unnumbered i) /\ call_in (ps_trace s') Header sub1 /\ call_in (ps_trace s') Header sub2 /\ ~ same_print sub1 sub2.
Proof. exact large_header. Qed.
Print Assumptions C109_refuted.

(** What holds: texts and boxes that set the font themselves, without page number and not
    justified, are printed alike on all pages. *)
Theorem C109_same_partial : forall (F : Num) (env : Env F) (eng : Engine F), places eng -> page_stable (eng:=eng) ->
  (forall l, Permutation (e_shuffle env l) l) ->
  forall depth e r (s' : PS F eng), process env depth e = Ok r s' -> forall c, let section := match c with Header => e_header env | Footer => e_footer env end in
  (forall i, In i section -> unnumbered i) -> (forall i, In i section -> settled env i) ->
  forall sub1 sub2, call_in (ps_trace s') c sub1 -> call_in (ps_trace s') c sub2 -> same_print sub1 sub2.
Proof. exact (fun F env eng Hp Hs => headers_same env Hp Hs). Qed.
Print Assumptions C109_same_partial.
Example C109_laws : places RefEngine /\ page_stable (eng:=RefEngine).
Proof. split; [exact ref_places|exact ref_stable]. Qed.
(** The header of two words in 9 point bold Arial, on two pages with large letters between. *)
Example C109_example : (forall i, In i (e_header fixed_env) -> unnumbered i /\ settled fixed_env i) /\
  exists (s' : PS NumQ RefEngine) sub1 sub2, process fixed_env 2 ref_start = Ok None s' /\
  headers (ps_trace s') = [sub1; sub2] /\ map (fun q : pen NumQ * bytes => snd q) (printed_words no_pen sub2) = [$"h"; $"i"].
Proof. exact (conj fixed_settled fixed_twice). Qed.
