(** Specification for C63 and C92 in binary64: how far sums of a few numbers may be off. *)
From Coq Require Import Reals List.
From Verif Require Import Num FloatSpec.
From Coq Require Import Rdefinitions.
Local Open Scope R_scope.

(** [2 ^ -49] of the sum of the sizes of the numbers. *)
Definition sum_error (l : list NumF64) : R := / 2 ^ 49 * sumR (map (fun v => Rabs (fval v)) l).
