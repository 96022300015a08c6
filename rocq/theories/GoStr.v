(** Go byte strings and the functions of package [strings] used by xpdf.

    A Go [string] is an immutable byte sequence; it is modelled as [list ascii]
    ([ascii] = 8 bits). All functions here model the Go standard library
    (documented behaviour of package strings, Go 1.19) restricted to the way xpdf
    calls them; they are part of the trusted base. *)
From Coq Require Export List Ascii String Arith NArith ZArith Lia Bool.
Export ListNotations.

Definition bytes := list ascii.

(** String literals: [$"abc"]. *)
Notation "$ s" := (list_ascii_of_string s%string) (at level 1, s at level 0, only parsing).

Definition sp : ascii := " "%char.          (* 0x20 *)
Definition cr : ascii := ascii_of_nat 13.   (* \r *)
Definition lf : ascii := ascii_of_nat 10.   (* \n *)
Definition tab : ascii := ascii_of_nat 9.   (* \t *)
Definition bsl : ascii := ascii_of_nat 92.  (* \  *)

(** Byte-wise string equality, Go's [==] on strings. *)
Fixpoint beqb (a b : bytes) : bool :=
  match a, b with
  | [], [] => true
  | x :: a', y :: b' => Ascii.eqb x y && beqb a' b'
  | _, _ => false
  end.

(** strings.HasPrefix(s, p) *)
Fixpoint has_prefix (p s : bytes) : bool :=
  match p, s with
  | [], _ => true
  | x :: p', y :: s' => Ascii.eqb x y && has_prefix p' s'
  | _ :: _, [] => false
  end.

(** strings.ReplaceAll(s, old, new): the leftmost, non-overlapping occurrences of
    [old] are replaced. [skip] counts the bytes of the current occurrence still to be
    dropped. Go inserts [new] before every rune when [old] is empty and differs from
    [new]; xpdf never does that (its only call with an empty [old] has [new = old],
    where Go returns [s]), so the empty [old] is modelled by [s] only. *)
Fixpoint replace_go (old new : bytes) (skip : nat) (s : bytes) : bytes :=
  match s with
  | [] => []
  | c :: s' =>
      match skip with
      | S k => replace_go old new k s'
      | O => if has_prefix old s
             then new ++ replace_go old new (List.length old - 1) s'
             else c :: replace_go old new 0 s'
      end
  end.
Definition replace_all (s old new : bytes) : bytes :=
  if beqb old new then s else
  match old with [] => s | _ => replace_go old new 0 s end.

(** strings.Repeat(s, n) *)
Fixpoint str_repeat (s : bytes) (n : nat) : bytes :=
  match n with O => [] | S k => s ++ str_repeat s k end.

(** strings.TrimLeft / TrimRight / Trim with an ASCII cutset, given as a predicate. *)
Fixpoint trim_left (cut : ascii -> bool) (s : bytes) : bytes :=
  match s with
  | c :: s' => if cut c then trim_left cut s' else s
  | [] => []
  end.
Definition trim_right (cut : ascii -> bool) (s : bytes) : bytes :=
  rev (trim_left cut (rev s)).
Definition trim (cut : ascii -> bool) (s : bytes) : bytes :=
  trim_right cut (trim_left cut s).

(** The cutset [" "]. *)
Definition is_sp (c : ascii) : bool := Ascii.eqb c sp.
(** The cutset [" \r\n\t"] (also [" \n\r\t"]). *)
Definition is_ws (c : ascii) : bool :=
  Ascii.eqb c sp || Ascii.eqb c cr || Ascii.eqb c lf || Ascii.eqb c tab.

(** strings.Split(s, sep) for a one-byte separator; always at least one element. *)
Fixpoint split_byte (sep : ascii) (s : bytes) : list bytes :=
  match s with
  | [] => [[]]
  | c :: s' =>
      if Ascii.eqb c sep then [] :: split_byte sep s'
      else match split_byte sep s' with
           | w :: ws => (c :: w) :: ws
           | [] => [[c]]
           end
  end.

(** strings.Join(parts, sep) *)
Fixpoint str_join (sep : bytes) (l : list bytes) : bytes :=
  match l with
  | [] => []
  | [w] => w
  | w :: l' => w ++ sep ++ str_join sep l'
  end.

(** strings.IndexByte(s, c): [None] for Go's -1. *)
Fixpoint index_byte (c : ascii) (s : bytes) : option nat :=
  match s with
  | [] => None
  | x :: s' => if Ascii.eqb x c then Some 0
               else match index_byte c s' with Some i => Some (S i) | None => None end
  end.

(** strings.Contains(s, c) for a one-byte [c]. *)
Definition contains_byte (c : ascii) (s : bytes) : bool := existsb (Ascii.eqb c) s.

(** Go slice expression s[i:j]; [None] is the run-time panic for bounds out of range. *)
Definition slice {A} (s : list A) (i j : nat) : option (list A) :=
  if (i <=? j) && (j <=? List.length s) then Some (firstn (j - i) (skipn i s)) else None.
