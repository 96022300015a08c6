(** Specification of the page number placeholder (C66). *)
From Verif Require Import GoStr.
From Verif Require TextSpec.

(** The parts of a text with [sep] between them. *)
Fixpoint joined (sep : bytes) (parts : list bytes) : bytes :=
  match parts with [] => [] | [p] => p | p :: parts' => p ++ sep ++ joined sep parts' end.
(** [t] is [s] with every occurrence of [old] replaced by [new]. *)
Definition replaced (old new s t : bytes) : Prop :=
  exists parts, s = joined old parts /\ t = joined new parts /\ Forall (fun p => ~ TextSpec.occurs old p) parts.

(** The number denoted by decimal digits. *)
Definition digit_value (c : ascii) : option N :=
  let n := N_of_ascii c in if ((48 <=? n) && (n <=? 57))%N then Some (n - 48)%N else None.
Fixpoint value_from (acc : N) (s : bytes) : option N :=
  match s with
  | [] => Some acc
  | c :: s' => match digit_value c with Some d => value_from (10 * acc + d) s' | None => None end
  end.
(** [s] is the decimal notation of [n]: digits, without leading zeros. *)
Definition decimal_N (n : N) (s : bytes) : Prop :=
  s <> [] /\ value_from 0 s = Some n /\ (forall t, s = "0"%char :: t -> t = []).
Definition decimal (z : Z) (s : bytes) : Prop :=
  if (z <? 0)%Z then exists t, s = "-"%char :: t /\ decimal_N (Z.to_N (- z)) t else decimal_N (Z.to_N z) s.
