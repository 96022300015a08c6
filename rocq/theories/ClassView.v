(** Readings of the model's data used in the statements of C16-C25. *)
From Coq Require Import Permutation.
From Verif Require Import GoStr Utf8 Scan Style StyleSpec Class ClassSpec.

(** A possible iteration order of a Go map. *)
Definition map_order (sh : rawmap -> rawmap) : Prop := forall l, Permutation (sh l) l.
Definition map_orders (sh : nat -> rawmap -> rawmap) : Prop := forall n, map_order (sh n).

Section View.
Context {F : Type}.
Variables parse_float convert_float : bytes -> option F.

(** [m] is what decoding [b] yields, for some iteration order. *)
Definition decoded (b : bytes) (m : mutator F) : Prop :=
  exists sh, map_order sh /\ decode_mutator F parse_float convert_float sh b = Some m.
Definition decodable (b : bytes) : Prop := exists m, decoded b m.

(** The classes [cs] are those of the rules [l]. *)
Definition sheet_map (l : list rule) (cs : Classes F) : Prop :=
  forall n, match class_rule l n with
            | None => map_get n cs = None
            | Some b => exists cl, map_get n cs = Some cl /\ decoded b (cl_mutator cl) /\
                forall s, match selector_rule l n s with
                          | None => map_get s (cl_selectors cl) = None
                          | Some b' => exists m, map_get s (cl_selectors cl) = Some m /\ decoded b' m
                          end
            end.
End View.

(** For the examples: whole numbers as the float type. *)
Definition sample_float (s : bytes) : option Z :=
  match s with
  | [] => None
  | _ => if forallb (fun c => is_dec (N_of_ascii c)) s then Some (Z.of_N (digits_value s)) else None
  end.
Definition sample_font : Font Z := mkFont ($"Arial") 12%Z ($"normal") ($"normal") ($"none").
Definition sample_styles : Styles Z :=
  mkStyles sample_font (mkBox (mkQuad 0 0 0 0) (mkQuad 0 0 0 0) (mkQuad 0 0 0 0))%Z (mkDim 0 0 1 0 0)%Z 0%Z
    (mkAlign ($"left") ($"top")) (mkColor (mkRGB 0 0 0) (mkRGB 0 0 0) (mkRGB 255 255 255))%Z 1%Z.
