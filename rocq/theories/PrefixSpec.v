(** Specification for C110: documents that begin alike. *)
From Verif Require Import GoStr Num Style Class Instr Engine Proc.

(** The same processor and document, but for the body. *)
Definition with_body {F : Num} (b : list (instr F)) (env : Env F) : Env F :=
  mkEnv (e_mut env) (e_mut_sel env) (e_hyph env) (e_resolve env) (e_image env) (e_shuffle env) (e_header env) (e_footer env) b.
