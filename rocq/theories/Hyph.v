(** Model of hyphenation/hyphenation.go:38-84 Hyphenate. *)
From Verif Require Import GoStr Utf8 HyphPattern.

Section Lower.
(** unicode.ToLower on non-ASCII runes, supplied from outside. *)
Variable ext_lower : N -> N.
Definition to_lower (r : N) : N :=
  if (r <? 128)%N then if ((65 <=? r) && (r <=? 90))%N then (r + 32)%N else r
  else ext_lower r.
(** strings.ToLower: rune by rune; what cannot be encoded becomes U+FFFD. *)
Definition str_to_lower (s : bytes) : bytes := encode (map to_lower (decode s)).

Definition dot : ascii := "."%char.

(** ws[k] = max(ws[k], w) with Go's bounds check. *)
Fixpoint raise_at (ws : list nat) (k w : nat) : option (list nat) :=
  match ws, k with
  | [], _ => None
  | x :: ws', O => Some ((if x <? w then w else x) :: ws')
  | x :: ws', S k' => match raise_at ws' k' w with Some r => Some (x :: r) | None => None end
  end.

(** hyphenation.go:58-62 *)
Fixpoint apply_weights (ws : list nat) (i : nat) (pw : list nat) : option (list nat) :=
  match pw with
  | [] => Some ws
  | w :: pw' => match raise_at ws i w with Some ws' => apply_weights ws' (S i) pw' | None => None end
  end.

Fixpoint fold_opt {A B} (f : A -> B -> option A) (a : A) (l : list B) : option A :=
  match l with
  | [] => Some a
  | b :: l' => match f a b with Some a' => fold_opt f a' l' | None => None end
  end.

(** hyphenation.go:52-63: one (subSize, i) iteration. *)
Definition weigh_one (pl : lookup) (rs : list N) (size : nat) (ws : list nat) (i : nat) : option (list nat) :=
  match slice rs i (i + size) with
  | None => None
  | Some sub =>
      match find pl (encode sub) with
      | None => Some ws
      | Some p => apply_weights ws i (weights p)
      end
  end.
(** hyphenation.go:51-64 *)
Definition weigh (pl : lookup) (rs : list N) : option (list nat) :=
  fold_opt (fun ws size => fold_opt (weigh_one pl rs size) ws (seq 0 (List.length rs - size + 1)))
           (repeat 0 (List.length rs + 1)) (seq 1 (List.length rs)).

(** hyphenation.go:66-78: [i] is the loop index, [acc] the parts so far. *)
Fixpoint cut_loop (s : bytes) (last i : nat) (acc : list bytes) (ws : list nat) : option (nat * list bytes) :=
  match ws with
  | [] => Some (last, acc)
  | w :: ws' =>
      if Nat.eqb (w mod 2) 1 then
        match slice s last (i + 1) with
        | None => None
        | Some part =>
            if 1 <? List.length part then cut_loop s (i + 1) (S i) (acc ++ [part]) ws'
            else cut_loop s last (S i) acc ws'
        end
      else cut_loop s last (S i) acc ws'
  end.

(** hyphenation.go:38-84 Hyphenate. [None] is a run-time panic. *)
Definition hyphenate (pl : lookup) (s : bytes) : option (list bytes) :=
  if List.length s <? 3 then Some [s]
  else if contains_byte sp s then Some [s]
  else if 100 <? List.length s then Some [s]
  else
    let rs := decode ([dot] ++ str_to_lower s ++ [dot]) in
    match weigh pl rs with
    | None => None
    | Some ws =>
        match slice ws 2 (List.length ws - 2) with
        | None => None
        | Some inner =>
            match cut_loop s 0 0 [] inner with
            | None => None
            | Some (last, sl) =>
                match slice s last (List.length s) with
                | None => None
                | Some part => Some (if 1 <? List.length part then sl ++ [part] else sl)
                end
            end
        end
    end.
End Lower.
