(** Specification of what cmd/image prints (C107): reading Go's quoted strings. *)
From Verif Require Import GoStr Utf8.
From Verif Require Import JsonSpec.
Local Open Scope nat_scope.

(** The character after a backslash, other than "x", "u" and "U" (Go specification, "Rune literals"
    and "String literals"). *)
Definition simple_escape (c : ascii) : option ascii :=
  if Ascii.eqb c "a"%char then Some (ascii_of_nat 7) else if Ascii.eqb c "b"%char then Some (ascii_of_nat 8)
  else if Ascii.eqb c "f"%char then Some (ascii_of_nat 12) else if Ascii.eqb c "n"%char then Some (ascii_of_nat 10)
  else if Ascii.eqb c "r"%char then Some (ascii_of_nat 13) else if Ascii.eqb c "t"%char then Some (ascii_of_nat 9)
  else if Ascii.eqb c "v"%char then Some (ascii_of_nat 11) else if Ascii.eqb c "\"%char then Some "\"%char
  else if Ascii.eqb c """"%char then Some """"%char else None.
(** What is being read: characters, the character after a backslash, or the digits of a byte or
    of a character, of which [digits] are left. *)
Inductive qmode := Plain | Escape | Hex (raw : bool) (digits : nat) (n : N).
(** Reads up to the closing quote: the string read so far, backwards, is [acc]. *)
Fixpoint unquote_go (m : qmode) (acc s : bytes) : option (bytes * bytes) :=
  match s with
  | [] => None
  | c :: s' =>
      match m with
      | Plain => if Ascii.eqb c """"%char then Some (rev acc, s') else if Ascii.eqb c "\"%char then unquote_go Escape acc s'
                 else if Ascii.eqb c lf then None else unquote_go Plain (c :: acc) s'
      | Escape => if Ascii.eqb c "x"%char then unquote_go (Hex true 2 0) acc s' else if Ascii.eqb c "u"%char then unquote_go (Hex false 4 0) acc s'
                  else if Ascii.eqb c "U"%char then unquote_go (Hex false 8 0) acc s'
                  else match simple_escape c with Some b => unquote_go Plain (b :: acc) s' | None => None end
      | Hex raw digits n =>
          match hex_value c with
          | Some v => let n' := (16 * n + v)%N in
              match digits with
              | S (S k) => unquote_go (Hex raw (S k) n') acc s'
              | _ => unquote_go Plain (rev (if raw then [byte n'] else encode_rune n') ++ acc) s'
              end
          | None => None
          end
      end
  end.
(** The string denoted by a string literal of Go. *)
Definition unquoted (t : bytes) : option bytes :=
  match t with
  | c :: t' => if Ascii.eqb c """"%char then match unquote_go Plain [] t' with Some (s, []) => Some s | _ => None end else None
  | [] => None
  end.
