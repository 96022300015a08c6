(** Model of hyphenation/en-us.go:5-9 NewEnUs and latin.go:5-9 NewLatin. *)
From Verif Require Import GoStr HyphPattern HyphEnUs HyphLatin.

(** The text of a table: every line followed by LF. *)
Definition table_text (ls : list string) : bytes :=
  flat_map (fun l => list_ascii_of_string l ++ [lf]) ls.

(** NewEnUs / NewLatin: the error of loadPatternLookup is discarded; [None] stands for the
    hyphenator with a nil lookup, which panics on its first use. *)
Definition new_builtin (ext_digit : N -> bool) (ls : list string) : option lookup :=
  match load ext_digit (table_text ls) with Ok pl => Some pl | Err _ => None end.
Definition new_en_us (ext_digit : N -> bool) := new_builtin ext_digit en_us_lines.
Definition new_latin (ext_digit : N -> bool) := new_builtin ext_digit latin_lines.
