(** Specification for C106 in binary64: at which heights texts are written and frames drawn. *)
From Coq Require Import ZArith.
From Verif Require Import GoStr Num Style Engine.

(** The texts written by a list of commands and the heights of the cursor, from [y] on, in lines
    of height [h]. *)
Fixpoint written_at (h y : NumF64) (l : list (cmd NumF64)) : list (bytes * NumF64) :=
  match l with
  | [] => []
  | Simple (SetY y') :: l => written_at h y' l
  | Simple (LineFeed n) :: l => written_at h (add y (mul h n)) l
  | WriteText t :: l => (t, y) :: written_at h y l
  | _ :: l => written_at h y l
  end.
(** The heights of the corners of the frames drawn. *)
Definition corners (l : list (cmd NumF64)) : list NumF64 := flat_map (fun c => match c with Simple (MoveTo _ y) => [y] | _ => [] end) l.
