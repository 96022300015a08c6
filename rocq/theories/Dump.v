(** Model of Description.Dump (XML) and of the command cmd/describe. *)
From Verif Require Import GoStr Utf8 Num Style Class Instr Load Describe.
Local Open Scope nat_scope.

(** ** encoding/xml: MarshalIndent *)
(** xml.go isInCharacterRange *)
Definition xml_char (r : N) : bool :=
  ((r =? 9) || (r =? 10) || (r =? 13) || between 32 r 55295 || between 57344 r 65533 || between 65536 r 1114111)%N.
(** xml.go printer.EscapeString, for one rune; for an invalid byte the rune is U+FFFD *)
Definition escape_rune (r : N) : bytes :=
  (if r =? 34 then $"&#34;" else if r =? 39 then $"&#39;" else if r =? 38 then $"&amp;" else if r =? 60 then $"&lt;"
   else if r =? 62 then $"&gt;" else if r =? 9 then $"&#x9;" else if r =? 10 then $"&#xA;" else if r =? 13 then $"&#xD;"
   else if xml_char r then encode_rune r else encode_rune rune_error)%N.
Definition escape (s : bytes) : bytes := flat_map escape_rune (decode s).

(** The values that are marshalled: strings and numbers (as strconv formats them), nil and maps
    in interfaces, slices and structs with the names of their exported fields. Pointers and
    non-nil interfaces are followed. *)
Inductive goval := GText (s : bytes) | GNil | GMap | GSlice (l : list goval) | GStruct (fs : list (bytes * goval)).

(** marshal.go writeIndent with prefix "" and the indent of two spaces; [lf] is not written
    before the first element, which is done in [marshal]. *)
Definition indent (depth : nat) : bytes := repeat sp (2 * depth).
Definition newline (depth : nat) : bytes := lf :: indent depth.
Definition open_tag (n : bytes) : bytes := $"<" ++ n ++ $">".
Definition close_tag (n : bytes) : bytes := $"</" ++ n ++ $">".

(** marshal.go marshalValue for an element (or the elements of a slice) called [n], each preceded
    by its line break; [None]: an error (maps are unsupported). writeIndent puts the end tag on
    a line of its own if some element was written inside. *)
Fixpoint marshal_value (depth : nat) (n : bytes) (v : goval) {struct v} : option bytes :=
  match v with
  | GNil => Some []
  | GMap => None
  | GText s => Some (newline depth ++ open_tag n ++ escape s ++ close_tag n)
  | GSlice l => (fix all (l : list goval) : option bytes :=
      match l with
      | [] => Some []
      | x :: l' => match marshal_value depth n x, all l' with Some a, Some b => Some (a ++ b) | _, _ => None end
      end) l
  | GStruct fs =>
      match (fix fields (fs : list (bytes * goval)) : option bytes :=
        match fs with
        | [] => Some []
        | (k, x) :: fs' => match marshal_value (S depth) k x, fields fs' with Some a, Some b => Some (a ++ b) | _, _ => None end
        end) fs with
      | None => None
      | Some inner => Some (newline depth ++ open_tag n ++ inner ++ match inner with [] => [] | _ => newline depth end ++ close_tag n)
      end
  end.
(** MarshalIndent of a value of the type called [n] *)
Definition marshal (n : bytes) (v : goval) : option bytes :=
  match marshal_value 0 n v with Some (_ :: out) => Some out | r => r end.

Section Dump.
Variable F : Num.
Variable format_float : F -> bytes.   (* strconv.FormatFloat(x, 'g', -1, 64) *)

(** The fields of DescribeItem and Diff (xdoc/describe.go:18-23, xdoc/diff.go:10-14) *)
Definition jval_go (j : jval F) : goval := match j with JStr s => GText s | JNum x => GText (format_float x) | JObj _ => GMap end.
Definition value_go (v : value F) : goval := match v with NoValue => GNil | StrValue s => GText s | NumValue x => GText (format_float x) end.
Definition diff_go (d : diff F) : goval :=
  GStruct [($"Path", GText (d_path d)); ($"Org", match d_org d with Some j => jval_go j | None => GNil end); ($"Mod", jval_go (d_mod d))].
Fixpoint item_go (it : item F) : goval :=
  match it with
  | mkItem n v ds items =>
      GStruct [($"Name", GText n); ($"Value", value_go v); ($"StyleDiffs", GSlice (map diff_go ds)); ($"Items", GSlice (map item_go items))]
  end.
(** xdoc/describe.go:37-48 Dump(DescribeXML); the error is ignored. JSON is left out. *)
Definition dump_xml (items : list (item F)) : bytes :=
  match marshal ($"Description") (GStruct [($"Items", GSlice (map item_go items))]) with Some out => out | None => [] end.

(** cmd/describe/main.go:10-26 main: the exit code and what is printed. [load] is LoadFromFile:
    a document or the text of an error, and what loading prints (ClassOut.v); [finite], [mutated]
    and [order] as for [describe]. *)
Variable load : bytes -> (Document F + bytes) * bytes.
Variable finite : F -> bool.
Variable mutated : Document F -> Styled F -> Styles F -> Styles F.
Variable order : list nat -> bytes -> list (bytes * dres F) -> list (bytes * dres F).
Definition describe_main (args : list bytes) : nat * bytes :=
  match load (match args with [] => $"../../examples/grid.xml" | a :: _ => a end) with
  | (inr err, said) => (2, said ++ $"ERROR: " ++ err ++ [lf])
  | (inl doc, said) => (0, said ++ dump_xml (describe F finite (mutated doc) order doc) ++ [lf])
  end.
End Dump.
