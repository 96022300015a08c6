(** Specification of the texts that show the sizes of a table and of an area (C105). *)
From Coq Require Import QArith Qabs Floats.SpecFloat.
From Verif Require Import GoStr Num PageSpec GridTextSpec.

(** Neither infinite nor NaN. *)
Definition finite (x : NumF64) : bool := match x with S754_zero _ | S754_finite _ _ _ => true | _ => false end.
(** The value of a finite float64. *)
Definition qval (x : NumF64) : Q :=
  match x with
  | S754_finite s m e =>
      let n := if s then Zneg m else Zpos m in
      match e with Zneg p => n # (2 ^ p) | _ => inject_Z (n * 2 ^ e) end
  | _ => 0
  end.
(** Reading a decimal number with one digit after the point. *)
Definition unsigned1 (s : bytes) : option Q :=
  match parts "." s with
  | [a; [d]] => match a, value_from 0 a, value_from 0 [d] with
    | _ :: _, Some n, Some k => Some (Z.of_N (10 * n + k) # 10)
    | _, _, _ => None end
  | _ => None
  end.
Definition decimal1 (s : bytes) : option Q :=
  match s with
  | c :: s' => if Ascii.eqb c "-" then option_map Qopp (unsigned1 s') else unsigned1 s
  | [] => None
  end.
(** [q] is [x] to the nearest tenth. *)
Definition nearest (q : Q) (x : NumF64) : Prop := Qabs (q - qval x) <= 1 # 20.

(** [row:column:w=..:h=..:mh=..], in brackets *)
Definition dims : Type := nat * nat * (Q * Q * Q).
Definition read_dims_entry (s : bytes) : option dims :=
  match s with
  | "["%char :: s' =>
      if beqb (last (map (fun c => [c]) s') []) ($"]") then
        match parts ":" (removelast s') with
        | [i; j; "w"%char :: "="%char :: w; "h"%char :: "="%char :: v; "m"%char :: "h"%char :: "="%char :: u] =>
            match number_nat i, number_nat j, decimal1 w, decimal1 v, decimal1 u with
            | Some i, Some j, Some w, Some v, Some u => Some (i, j, (w, v, u))
            | _, _, _, _, _ => None
            end
        | _ => None
        end
      else None
  | _ => None
  end.
Definition read_dims_row (s : bytes) : option (list dims) :=
  match parts "," s with
  | [[]] => Some []
  | p :: ps => all_some (read_dims_entry p :: map (fun q => match q with " "%char :: q' => read_dims_entry q' | _ => None end) ps)
  | [] => None
  end.
Definition read_dims (s : bytes) : option (list (list dims)) := all_some (map read_dims_row (parts lf s)).
Definition dims_at (grid : list (list dims)) (i j : nat) : option dims :=
  match nth_error grid i with Some row => nth_error row j | None => None end.
