(** Descriptions: for the examples. *)
From Coq Require Import ZArith QArith.
From Verif Require Import GoStr Num Style Class Instr LoadSpec Load Describe DescribeSpec LoadWit.

(** What is shown of a loaded document. *)
Fixpoint outline {F} (it : item F) : list bytes := match it with mkItem n _ _ l => n :: flat_map outline l end.
Definition sample_outline (kids : list node) : list bytes :=
  match sample_load (root kids) with
  | LOk _ doc _ => flat_map outline (sub_items ($"body") (describe NumQ (fun _ => true) (fun _ s => s) (fun _ _ l => l) doc))
  | _ => [] end.
