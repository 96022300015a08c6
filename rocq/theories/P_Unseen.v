(** Property C114: elements that are not drawn change nothing. Proofs are in UnseenThms.v; which
    elements these are, and [thinned] and [with_parts], is in UnseenSpec.v. *)
From Coq Require Import ZArith QArith Permutation.
From Verif Require Import GoStr Num Style Class Instr Engine Layout Grid Table Lines Proc ProcView RefEngine UnseenSpec UnseenThms.
Local Open Scope nat_scope.

(** Without some of these elements in its header, footer and body a document gives the same engine
    calls, the same result and the same final state, or fails in the same way. *)
Theorem C114_thinned : forall (F : Num) (env : Env F) (eng : Engine F), (forall l, Permutation (e_shuffle env l) l) ->
  forall header footer body, thinned (unseen env) (e_header env) header -> thinned (unseen env) (e_footer env) footer -> thinned (unseen env) (e_body env) body ->
  forall depth (e : est eng), process (with_parts header footer body env) depth e = process env depth e.
Proof. exact @thinned_run. Qed.
Print Assumptions C114_thinned.
(** A missing image and a grid in the header, a missing image and an empty text between two words. *)
Example C114_example :
  let env := doc_env [] [IImage no_style ($"missing"); IGrid no_style [] []] [] [IText no_style [ITextBlock ($"a")]; IImage no_style ($"missing"); IText no_style []; IText no_style [ITextBlock ($"b")]] in
  let body := [IText no_style [ITextBlock ($"a")]; IText no_style [ITextBlock ($"b")]] in
  thinned (unseen env) (e_header env) [] /\ thinned (unseen env) (e_footer env) [] /\ thinned (unseen env) (e_body env) body /\
  with_parts [] [] body env = doc_env [] [] [] body /\
  match process env 2 ref_start with Ok None s => List.length (ps_trace s) <> 0 /\ Some s = match process (doc_env [] [] [] body) 2 ref_start with Ok None s' => Some s' | _ => None end | _ => False end.
Proof.
  cbv zeta. split; [repeat (apply T_drop; [constructor; reflexivity|]); apply T_nil|]. split; [apply T_nil|].
  split; [apply T_keep, T_drop; [constructor; reflexivity|]; apply T_drop; [constructor|]; apply T_keep, T_nil|].
  split; [reflexivity|]. vm_compute. split; [discriminate|reflexivity].
Qed.
