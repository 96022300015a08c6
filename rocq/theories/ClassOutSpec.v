(** Specification of what loading prints (C112). *)
From Verif Require Import GoStr Utf8 Scan Style StyleSpec ClassSpec.

(** One line for each rule with a selector, in the order of the rules *)
Definition announces (r : rule) : bytes :=
  match r_sel r with
  | Some s => $"added selector (" ++ s ++ $") to class (" ++ r_class r ++ $") " ++ [lf]
  | None => []
  end.
Definition announced (l : list rule) : bytes := List.concat (map announces l).
