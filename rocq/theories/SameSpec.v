(** What a Processor of a loaded document is given (C95). *)
From Verif Require Import GoStr Num Style Class Instr Xml Load Grid Proc.

Section Same.
Context {F : Num}.
(** process.go:24-33: the instructions of [doc], and the styles of its elements by the classes
    [cs] of its style sheet. [shuffle] is the iteration order of the map of a grid. In a loaded
    document the styles of all elements can be computed (C87). *)
Definition loaded_env (hyph : bytes -> list bytes) (resolve : bytes -> bytes) (image : bytes -> option (Z * Z))
    (shuffle : boxes -> boxes) (doc : Document F) (cs : Classes F) : Env F :=
  mkEnv (fun st s => match mutated_styles cs st s with Some s' => s' | None => s end)
    (fun sel st s => match mutated_styles_sel sel cs st s with Some s' => s' | None => s end)
    hyph resolve image shuffle (doc_header F doc) (doc_footer F doc) (doc_body F doc).
End Same.
