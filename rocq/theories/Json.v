(** Model of Description.Dump (JSON): xdoc/describe.go:37-48 and encoding/json of Go 1.19. *)
From Verif Require Import GoStr Utf8 Num Style Class Instr Load Describe Dump.
Local Open Scope nat_scope.

(** ** encoding/json: MarshalIndent *)
(** encode.go hex *)
Definition hex (n : N) : ascii := List.nth (N.to_nat n) ($"0123456789abcdef") "0"%char.
Definition backslash : ascii := "\"%char.
Definition quote : ascii := """"%char.
(** encode.go encodeState.string with escapeHTML, for a rune of a valid encoding *)
Definition json_rune (r : N) : bytes :=
  (if r =? 34 then [backslash; quote] else if r =? 92 then [backslash; backslash]
   else if r =? 10 then backslash :: $"n" else if r =? 13 then backslash :: $"r" else if r =? 9 then backslash :: $"t"
   else if (r <? 32) || (r =? 60) || (r =? 62) || (r =? 38) then backslash :: $"u00" ++ [hex (r / 16); hex (r mod 16)]
   else if (r =? 8232) || (r =? 8233) then backslash :: $"u202" ++ [hex (r mod 16)]
   else encode_rune r)%N.
(** the loop of encodeState.string; an invalid byte is decoded as U+FFFD of one byte *)
Fixpoint json_escape (skip : nat) (s : bytes) : bytes :=
  match s with
  | [] => []
  | c :: s' =>
      match skip with
      | S k => json_escape k s'
      | O => let '(r, k) := decode_first c s' in
             (if (r =? rune_error)%N && (k =? 0) then backslash :: $"ufffd" else json_rune r) ++ json_escape k s'
      end
  end.
Definition json_string (s : bytes) : bytes := quote :: json_escape 0 s ++ [quote].

Section Json.
Variable F : Num.
Variable format_json : F -> bytes.    (* encode.go floatEncoder.encode, for a finite number *)
Variable finite : F -> bool.
(** Maps are written with their keys in order: left open, no description holds one (C96). *)
Variable marshal_map : list (bytes * jval F) -> option bytes.

(** The values that are marshalled: nil interfaces, strings, numbers, maps, slices (which may be
    nil) and structs with the names of their exported fields. *)
Inductive jgo := JGNil | JGText (s : bytes) | JGNum (x : F) | JGMap (l : list (bytes * jval F)) | JGNilSlice | JGSlice (l : list jgo) | JGStruct (fs : list (bytes * jgo)).

(** indent.go Indent with prefix "" and two spaces, around the parts of an array or object; here
    done while marshalling instead of afterwards *)
Definition bracket (o c : ascii) (depth : nat) (parts : list bytes) : bytes :=
  match parts with
  | [] => [o; c]
  | _ => o :: newline (S depth) ++ str_join ("," %char :: newline (S depth)) parts ++ newline depth ++ [c]
  end.
(** all of them, or an error *)
Fixpoint sequence (l : list (option bytes)) : option (list bytes) :=
  match l with
  | [] => Some []
  | Some x :: l' => option_map (cons x) (sequence l')
  | None :: _ => None
  end.
(** encode.go reflectValue; [None]: UnsupportedValueError for NaN and infinities *)
Fixpoint marshal_json (depth : nat) (v : jgo) {struct v} : option bytes :=
  match v with
  | JGNil | JGNilSlice => Some ($"null")
  | JGText s => Some (json_string s)
  | JGNum x => if finite x then Some (format_json x) else None
  | JGMap l => marshal_map l
  | JGSlice l => option_map (bracket "["%char "]"%char depth) (sequence (map (marshal_json (S depth)) l))
  | JGStruct fs => option_map (bracket "{"%char "}"%char depth)
      (sequence (map (fun kx => option_map (fun t => json_string (fst kx) ++ $": " ++ t) (marshal_json (S depth) (snd kx))) fs))
  end.

(** xdoc/describe.go:18-23, xdoc/diff.go:10-14 *)
Definition jval_json (j : jval F) : jgo := match j with JStr s => JGText s | JNum x => JGNum x | JObj l => JGMap l end.
Definition value_json (v : value F) : jgo := match v with NoValue => JGNil | StrValue s => JGText s | NumValue x => JGNum x end.
Definition diff_json (d : diff F) : jgo :=
  JGStruct [($"Path", JGText (d_path d)); ($"Org", match d_org d with Some j => jval_json j | None => JGNil end); ($"Mod", jval_json (d_mod d))].
(** The items made without StyleDiffs, by their names (xdoc/describe.go:55-82, 88-141, 246-259);
    describeMutator never returns nil. *)
Definition unstyled (n : bytes) : bool :=
  existsb (beqb n) (map list_ascii_of_string ["meta"; "page"; "header"; "footer"; "body"; "author"; "creator"; "subject"; "orientation"; "format"; "margins";
    "left"; "top"; "right"; "bottom"; "line-break"; "page-break"; "text-block"]%string).
(** Items is nil unless something was appended to it. *)
Fixpoint item_json (it : item F) : jgo :=
  match it with
  | mkItem n v ds items =>
      JGStruct [($"Name", JGText n); ($"Value", value_json v);
        ($"StyleDiffs", match ds with [] => if unstyled n then JGNilSlice else JGSlice [] | _ => JGSlice (map diff_json ds) end);
        ($"Items", match items with [] => JGNilSlice | _ => JGSlice (map item_json items) end)]
  end.
(** xdoc/describe.go:37-48 Dump(DescribeJSON), and Dump of any other format; the error is ignored *)
Definition dump_json (items : list (item F)) : bytes :=
  match marshal_json 0 (JGStruct [($"Items", match items with [] => JGNilSlice | _ => JGSlice (map item_json items) end)]) with
  | Some out => out
  | None => []
  end.
(** xdoc/describe.go:37-48 Dump *)
Definition dump (format_float : F -> bytes) (format : bytes) (items : list (item F)) : bytes :=
  if beqb format ($"xml") then dump_xml F format_float items else dump_json items.
End Json.
