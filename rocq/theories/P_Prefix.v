(** Property C110: what comes later in a document does not change what was drawn before. Proofs
    are in PrefixThms.v; [with_body] (PrefixSpec.v) is a document with another body. *)
From Coq Require Import QArith Permutation.
From Verif Require Import GoStr Num Style Class Instr Engine Lines LinesSpec LinesView Proc RefEngine ProcView ProcSpec ProcWit LinesWit OutputSpec PaintSpec PaintWit PrefixSpec PrefixThms.
Local Open Scope nat_scope.

(** C110: a document and the same document with more at the end of its body: the engine calls of
    the first, without writing the file, are the first engine calls of the second, also those
    made in headers and footers. *)
Theorem C110_longer : forall (F : Num) (env : Env F) (eng : Engine F), (forall l, Permutation (e_shuffle env l) l) ->
  forall body more depth (e : est eng) r s r' s',
  process (with_body body env) depth e = Ok r s -> process (with_body (body ++ more) env) depth e = Ok r' s' ->
  exists evs rest, writes_nothing evs /\ (ps_trace s = evs \/ exists last, ps_trace s = evs ++ [Ev WritePDF last]) /\
    ps_trace s' = evs ++ rest.
Proof. exact (fun F env eng Hs => longer env Hs). Qed.
Print Assumptions C110_longer.
(** C110: so everything the first draws, the second draws, too, first and in the same way. *)
Theorem C110_drawn : forall (F : Num) (env : Env F) (eng : Engine F), (forall l, Permutation (e_shuffle env l) l) ->
  forall body more depth (e : est eng) r s r' s',
  process (with_body body env) depth e = Ok r s -> process (with_body (body ++ more) env) depth e = Ok r' s' ->
  forall p, exists rest, seen p (ps_trace s') = seen p (ps_trace s) ++ rest.
Proof. exact (fun F env eng Hs => longer_seen env Hs). Qed.
Print Assumptions C110_drawn.
(** Two words and a box; then a page break, a large text and an image. *)
Example C110_example :
  let body := [plain_text; IBox no_style [ITextBlock ($"c")]] in
  let more := [IPageBreak; big_text; IImage no_style ($"one")] in
  match ref_doc [plain_text] [] body, ref_doc [plain_text] [] (body ++ more) with
  | Ok None s, Ok None s' =>
      map kind (seen first_pen (ps_trace s)) = [$"b"; $"(background)"; $"(border)"; $"c"] /\
      map kind (seen first_pen (ps_trace s')) = [$"b"; $"(background)"; $"(border)"; $"c"; $"a"; $"(image one)"] /\
      with_body body (doc_env [] [plain_text] [] []) = doc_env [] [plain_text] [] body
  | _, _ => False end.
Proof. vm_compute. repeat split. Qed.

(** C110: two documents with the same beginning: the engine calls for this beginning are the
    same. *)
Theorem C110_common_start : forall (F : Num) (env : Env F) (eng : Engine F), (forall l, Permutation (e_shuffle env l) l) ->
  forall body m1 m2 depth (e : est eng) r1 s1 r2 s2,
  process (with_body (body ++ m1) env) depth e = Ok r1 s1 -> process (with_body (body ++ m2) env) depth e = Ok r2 s2 ->
  exists before (s0 : PS F eng) pieces s rest1 rest2, ps_trace s0 = before /\ List.length before = 5 /\
    performs env (callbacks env depth) body s0 pieces s /\
    ps_trace s1 = (before ++ List.concat pieces) ++ rest1 /\ ps_trace s2 = (before ++ List.concat pieces) ++ rest2.
Proof. exact (fun F env eng Hs => beginning env Hs). Qed.
Print Assumptions C110_common_start.
