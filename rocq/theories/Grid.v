(** Model of grid.go. *)
From Verif Require Import GoStr Style.

(** grid.go:9-12 *)
Record areaRow := mkAreaRow { ar_idx : nat; ar_cols : list nat }.
(** grid.go:14-19; the name is the key in the map of boxes, pa is never used *)
Record gridBox := mkGridBox { gb_rows : list areaRow; gb_left : nat; gb_top : nat; gb_right : nat; gb_bottom : nat }.

(** grid.go:22-33: the loop over b.rows. [None]: no row with this index, [Some None]: error.
    The last column of a row that has none would be a panic; rows are made with one column
    (:46-49). *)
Fixpoint add_to_row (row col : nat) (rows : list areaRow) : option (option (list areaRow)) :=
  match rows with
  | [] => None
  | r :: rows' =>
      if Nat.eqb (ar_idx r) row then
        if Nat.eqb col (last (ar_cols r) 0 + 1) then Some (Some (mkAreaRow (ar_idx r) (ar_cols r ++ [col]) :: rows'))
        else Some None
      else
        match add_to_row row col rows' with
        | Some (Some l) => Some (Some (r :: l))
        | x => x
        end
  end.
(** grid.go:21-51 add; [None] is an error *)
Definition box_add (b : gridBox) (row col : nat) : option gridBox :=
  match add_to_row row col (gb_rows b) with
  | Some None => None                                                                  (* :25 *)
  | Some (Some rows) =>                                                                (* :27-31 *)
      Some (mkGridBox rows (gb_left b) (gb_top b) (if gb_right b <? col then col else gb_right b) (gb_bottom b))
  | None =>
      let new := mkAreaRow row [col] in                                                (* :46-49 *)
      match gb_rows b with
      | [] => Some (mkGridBox [new] col row col row)                                   (* :37-39 *)
      | r0 :: _ =>
          if negb (Nat.eqb row (ar_idx (last (gb_rows b) r0) + 1)) then None           (* :34-36 *)
          else if negb (Nat.eqb col (gb_left b)) then None                             (* :41-43 *)
          else Some (mkGridBox (gb_rows b ++ [new]) (gb_left b) (gb_top b) (gb_right b) row)   (* :44 *)
      end
  end.
(** grid.go:53-61 validate; [None] is a panic *)
Definition box_validate (b : gridBox) : option bool :=
  match gb_rows b with
  | [] => None
  | r0 :: _ => Some (forallb (fun r => Nat.eqb (List.length (ar_cols r)) (List.length (ar_cols r0))) (gb_rows b))
  end.

Definition boxes := list (bytes * gridBox).
Definition empty_box : gridBox := mkGridBox [] 0 0 0 0.
(** grid.go:66-79: one row; [ia] is the column *)
Fixpoint add_areas (ir ia : nat) (areas : list bytes) (bs : boxes) : option boxes :=
  match areas with
  | [] => Some bs
  | a :: areas' =>
      let b := match map_get a bs with Some b => b | None => empty_box end in
      match box_add b ir ia with
      | None => None
      | Some b' => add_areas ir (ia + 1) areas' (map_set a b' bs)
      end
  end.
(** grid.go:65-80 *)
Fixpoint add_rows (ir : nat) (rows : list (list bytes)) (bs : boxes) : option boxes :=
  match rows with
  | [] => Some bs
  | r :: rows' => match add_areas ir 0 r bs with Some bs' => add_rows (ir + 1) rows' bs' | None => None end
  end.

Inductive gres := GOk (bs : boxes) | GErr | GPanic.
Fixpoint validate_all (l : boxes) : option bool :=
  match l with
  | [] => Some true
  | (_, b) :: l' => match box_validate b with
                    | None => None
                    | Some false => Some false
                    | Some true => validate_all l'
                    end
  end.
(** grid.go:63-87 renderGrid. Apart from log messages it has no effect; the model returns
    whether the grid was accepted, and the boxes. [shuffle] is the iteration order of the
    map of boxes. *)
Definition render_grid (shuffle : boxes -> boxes) (rows : list (list bytes)) : gres :=
  match add_rows 0 rows [] with
  | None => GErr
  | Some bs => match validate_all (shuffle bs) with
               | None => GPanic
               | Some true => GOk bs
               | Some false => GErr
               end
  end.
