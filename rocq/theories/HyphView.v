(** How the hyphenation theorems read the model's data (used in statements only). *)
From Verif Require Import GoStr Utf8 HyphPattern Hyph HyphSpec HyphBuiltin.

(** A loaded pattern set as a function from letters to weights. *)
Definition pats (pl : lookup) : patterns := fun sub => option_map weights (find pl (encode sub)).

(** The letters of [s] in lower case, as []rune(strings.ToLower(s)) sees them. *)
Definition sanitize (r : N) : N := if valid_rune r then r else rune_error.
Definition lower_runes (ext : N -> N) (s : bytes) : list N :=
  map (fun r => sanitize (to_lower ext r)) (decode s).

(** A non-ASCII digit stands where a weight is expected. *)
Definition foreign (ext : N -> bool) (rs : list N) : Prop := exists p d rest gs,
  rs = p ++ d :: rest /\ groups (unicode_digit ext) p gs /\ unicode_digit ext d = true /\ ~ ascii_digit d.
Definition bad_line (ext : N -> bool) (line : bytes) : Prop := foreign ext (decode (trim is_ws line)).

(** The line is not blank and reads as pattern [p]. *)
Definition defines (ext : N -> bool) (line : bytes) (p : pattern) : Prop :=
  trim is_ws line <> [] /\ parse_pattern ext (trim is_ws line) = Ok p.
(** [p] is the last definition of the letters [key] among the lines. *)
Definition last_def (ext : N -> bool) (ls : list bytes) (key : bytes) (p : pattern) : Prop :=
  exists l1 l l2, ls = l1 ++ l :: l2 /\ defines ext l p /\ encode (letters p) = key /\
    forall l' p', In l' l2 -> defines ext l' p' -> encode (letters p') <> key.
(** Below the token limit of bufio.Scanner. *)
Definition short (l : bytes) : Prop := (N.of_nat (List.length l) < 65536)%N.

(** The table loads without error into the built hyphenator, and every line of it is found with its own weights. *)
Definition table_complete (ext : N -> bool) (built : option lookup) (ls : list string) : Prop :=
  exists pl, built = Some pl /\ load ext (table_text ls) = Ok pl /\
    forall l, In l ls -> l <> EmptyString ->
      exists p, parse_pattern ext (list_ascii_of_string l) = Ok p /\ find pl (encode (letters p)) = Some p.
