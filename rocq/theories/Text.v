(** Model of package text (text/text.go). *)
From Verif Require Import GoStr.

(** text/text.go:5-15 RemoveTwins: the [for] loop, with explicit fuel. [None] = the
    loop has not returned within [fuel] iterations. *)
Fixpoint remove_twins_loop (fuel : nat) (s twin : bytes) : option bytes :=
  match fuel with
  | O => None
  | S n =>
      let rem := str_repeat twin 2 in          (* text.go:6 *)
      let rs := replace_all s rem twin in      (* text.go:9 *)
      if beqb rs s then Some rs                (* text.go:10-12 *)
      else remove_twins_loop n rs twin         (* text.go:13 *)
  end.

(** text/text.go:5-15. [length s + 1] iterations always suffice (property C04), so the
    [None] branch is never taken. *)
Definition remove_twins (s twin : bytes) : bytes :=
  match remove_twins_loop (S (List.length s)) s twin with Some r => r | None => s end.

(** text/text.go:17-27 WhitespaceRectified. *)
Definition whitespace_rectified (s : bytes) : bytes :=
  let rs := replace_all s [cr] [sp] in          (* text.go:19 *)
  let rs := replace_all rs [lf] [sp] in         (* text.go:20 *)
  let rs := replace_all rs [tab] [sp] in        (* text.go:21 *)
  let rs := trim is_sp rs in                    (* text.go:22 *)
  let rs := remove_twins rs [sp] in             (* text.go:23 *)
  let rs := replace_all rs [sp; bsl] [bsl] in   (* text.go:24 *)
  replace_all rs [bsl; sp] [bsl].               (* text.go:25 *)
