(** Specification of the text that shows the spans of a table (C104): how it is read. *)
From Verif Require Import GoStr Num Instr PageSpec TableView.

(** What the text says of a position: it pads the row, belongs to the cell at a position, or
    is a cell, with its column and row span if it has any. *)
Inductive mark := Padding | By (i j : nat) | Block (cs rs : Z) | Wide (cs rs : Z) | Tall (cs rs : Z) | Plain.
Definition entry : Type := nat * nat * mark.

(** A decimal number. *)
Definition number (s : bytes) : option Z :=
  match s with
  | [] => None
  | c :: s' => if Ascii.eqb c "-" then match s' with [] => None | _ => option_map (fun n => (- Z.of_N n)%Z) (value_from 0 s') end
               else option_map Z.of_N (value_from 0 s)
  end.
Definition number_nat (s : bytes) : option nat := match number s with Some z => if (z <? 0)%Z then None else Some (Z.to_nat z) | None => None end.
(** The parts of a text between separators. *)
Definition parts (sep : ascii) (s : bytes) : list bytes :=
  fold_right (fun c ws => if Ascii.eqb c sep then [] :: ws else match ws with w :: ws' => (c :: w) :: ws' | [] => [[c]] end) [[]] s.

(** [row:column-kind] or [row:column-kind:number:number], in brackets *)
Definition read_entry (s : bytes) : option entry :=
  match s with
  | "["%char :: s' =>
      if beqb (last (map (fun c => [c]) s') []) ($"]") then
        match parts ":" (removelast s') with
        | [i; jk] =>
            match parts "-" jk with
            | [j; a; b] =>
                match number_nat i, number_nat j with
                | Some i, Some j =>
                    if beqb b ($"cell") then
                      if beqb a ($"zero") then Some (i, j, Padding) else if beqb a ($"regl") then Some (i, j, Plain) else None
                    else None
                | _, _ => None
                end
            | _ => None
            end
        | [i; jk; m; n] =>
            match parts "-" jk with
            | [j; k] =>
                match number_nat i, number_nat j, number m, number n with
                | Some i, Some j, Some m, Some n =>
                    if beqb k ($"byspn") then Some (i, j, By (Z.to_nat m) (Z.to_nat n))
                    else if beqb k ($"spans") then Some (i, j, Block m n)
                    else if beqb k ($"colsp") then Some (i, j, Wide m n)
                    else if beqb k ($"rowsp") then Some (i, j, Tall m n) else None
                | _, _, _, _ => None
                end
            | _ => None
            end
        | _ => None
        end
      else None
  | _ => None
  end.
Fixpoint all_some {A} (l : list (option A)) : option (list A) :=
  match l with
  | [] => Some []
  | Some x :: l' => option_map (cons x) (all_some l')
  | None :: _ => None
  end.
(** The entries of a row are separated by a comma and a space. *)
Definition read_row (s : bytes) : option (list entry) :=
  match parts "," s with
  | [[]] => Some []
  | p :: ps => all_some (read_entry p :: map (fun q => match q with " "%char :: q' => read_entry q' | _ => None end) ps)
  | [] => None
  end.
Definition read_grid (s : bytes) : option (list (list entry)) := all_some (map read_row (parts lf s)).

(** The entry at a position. *)
Definition at_pos (grid : list (list entry)) (i j : nat) : option entry :=
  match nth_error grid i with Some row => nth_error row j | None => None end.
(** Entries of cells the author wrote, and what they should say. *)
Definition is_cell (e : entry) : bool := match snd e with Padding | By _ _ => false | _ => true end.
Definition cell_mark (cs rs : Z) : mark :=
  if ((1 <? cs) && (1 <? rs))%Z then Block cs rs else if (1 <? cs)%Z then Wide cs rs else if (1 <? rs)%Z then Tall cs rs else Plain.
Definition xmark {F : Num} (x : xcell F) : mark := match x with XCell _ cs rs _ => cell_mark cs rs end.
(** How many entries of a row belong to the cell at [i], [j]. *)
Definition belonging (i j : nat) (row : list entry) : nat :=
  List.length (filter (fun e => match snd e with By i' j' => Nat.eqb i' i && Nat.eqb j' j | _ => false end) row).
Definition mark_spans (m : mark) : nat * nat :=
  match m with Block cs rs | Wide cs rs | Tall cs rs => (span cs, span rs) | _ => (1, 1) end.
