(** float64 arithmetic.

    The layout code is modelled over this record of operations; theorems that hold for
    every [Num] hold in particular for IEEE binary64 ([NumF64]). [NumQ] (exact rationals)
    is used where algebra is needed. Numerals such as 0.1 in the Go source become
    quotients of integers ([of_Z] 1 / 10), which is the rounded literal in [NumF64] only
    up to the correctly rounded division, i.e. exactly for the literals used by xpdf. *)
From Coq Require Import ZArith QArith Bool.
From Coq Require Import Floats.SpecFloat.

Record Num := mkNum {
  carrier :> Type;
  of_Z : Z -> carrier;
  add : carrier -> carrier -> carrier;
  sub : carrier -> carrier -> carrier;
  mul : carrier -> carrier -> carrier;
  div : carrier -> carrier -> carrier;
  ltb : carrier -> carrier -> bool;     (* a < b, a > b is [ltb b a] *)
  leb : carrier -> carrier -> bool;     (* a <= b *)
  eqb : carrier -> carrier -> bool      (* a == b *)
}.
Arguments of_Z {n}. Arguments add {n}. Arguments sub {n}. Arguments mul {n}.
Arguments div {n}. Arguments ltb {n}. Arguments leb {n}. Arguments eqb {n}.

Definition zero {N : Num} : N := of_Z 0.

Declare Scope num_scope.
Delimit Scope num_scope with num.
Notation "a + b" := (add a b) : num_scope.
Notation "a - b" := (sub a b) : num_scope.
Notation "a * b" := (mul a b) : num_scope.
Notation "a / b" := (div a b) : num_scope.
Notation "a <? b" := (ltb a b) : num_scope.
Notation "a <=? b" := (leb a b) : num_scope.
Notation "a =? b" := (eqb a b) : num_scope.

(** Exact rationals. *)
Definition NumQ : Num := {|
  carrier := Q; of_Z := inject_Z; add := Qplus; sub := Qminus; mul := Qmult; div := Qdiv;
  ltb := fun a b => negb (Qle_bool b a); leb := Qle_bool; eqb := Qeq_bool |}.

(** IEEE 754 binary64 (53-bit precision), from the standard library's SpecFloat. *)
Definition prec64 : Z := 53.
Definition emax64 : Z := 1024.
Definition f64_of_Z (z : Z) : spec_float := binary_normalize prec64 emax64 z 0 false.
Definition NumF64 : Num := {|
  carrier := spec_float; of_Z := f64_of_Z;
  add := SFadd prec64 emax64; sub := SFsub prec64 emax64;
  mul := SFmul prec64 emax64; div := SFdiv prec64 emax64;
  ltb := SFltb; leb := SFleb; eqb := SFeqb |}.
