(** Decimal formatting of integers, as fmt's %d and strconv.Itoa print them. *)
From Verif Require Import GoStr.
Local Open Scope N_scope.

Definition digit (n : N) : ascii := ascii_of_N (48 + n).
(** Digits of [n], least significant first; [fuel] bounds their number. *)
Fixpoint digits_rev (fuel : nat) (n : N) : bytes :=
  match fuel with
  | O => []
  | S f => if n <? 10 then [digit n] else digit (n mod 10) :: digits_rev f (n / 10)
  end.
(** The number of binary digits bounds the number of decimal digits. *)
Definition itoa_N (n : N) : bytes := rev (digits_rev (S (N.to_nat (N.size n))) n).
Definition itoa (z : Z) : bytes :=
  match z with
  | Zneg p => "-"%char :: itoa_N (Npos p)
  | _ => itoa_N (Z.to_N z)
  end.
