(** Specification of the letters a file puts on the pages (C97), on the tree of its elements. *)
From Coq Require Import ZArith.
From Verif Require Import GoStr Num Style Class ClassView TextSpec LoadSpec LoadDocSpec.

(** The letters of a run of text: its character data and its paragraphs. Blanks do not count. *)
Definition run_ink (kids : list node) : bytes :=
  flat_map (fun k => match k with
    | Chars t => nonblank t
    | Elem _ n _ ks => if beqb n ($"p") then nonblank (chars_of ks) else []
    | Other => [] end) kids.
(** In a cell the tags of unknown elements do not count. *)
Fixpoint unwrap (t : node) : list node :=
  match t with
  | Elem _ n _ ks => if existsb (beqb n) known then [t] else flat_map unwrap ks
  | _ => [t]
  end.
(** Something for each child with a name. *)
Definition each (n : bytes) (f : list node -> bytes) (kids : list node) : bytes :=
  flat_map (fun k => match k with Elem _ m _ ks => if beqb m n then f ks else [] | _ => [] end) kids.
(** The letters of a cell: those of its text, then those of its boxes. *)
Definition cell_ink (kids : list node) : bytes :=
  let ks := flat_map unwrap kids in run_ink ks ++ each ($"box") run_ink ks.
Definition table_ink : list node -> bytes := each ($"tr") (each ($"td") cell_ink).
(** The letters of a section, body, header or footer: those of its texts, boxes and tables, in order. *)
Definition ink_of (t : node) : bytes :=
  match t with
  | Elem _ n _ ks => if beqb n ($"text") then run_ink ks else if beqb n ($"box") then run_ink ks
                     else if beqb n ($"table") then table_ink ks else []
  | _ => []
  end.
Definition section_ink (n : bytes) (kids : list node) : bytes := flat_map ink_of (under n kids).

(** Somewhere below. *)
Inductive below : list node -> node -> Prop :=
| Below_here ts t : In t ts -> below ts t
| Below_deep ts p n a ks t : In (Elem p n a ks) ts -> below ks t -> below ts t.

Section Plain.
Context {F : Num}.
Variables parse_float convert_float : bytes -> option F.
(** Contents whose style attributes are all right, with no page numbers, no repeated headers, and
    nothing inside its line feeds and positions. *)
Record plain_section (ts : list node) : Prop := {
  plain_style : forall p n a ks v, below ts (Elem p n a ks) -> In v (values ($"style") a) -> decodable parse_float convert_float v;
  plain_chars : forall t, below ts (Chars t) -> ~ occurs ($"{cp}") t;
  plain_p : forall p a ks, below ts (Elem p ($"p") a ks) -> ~ occurs ($"{cp}") (chars_of ks);
  plain_table : forall p a ks, below ts (Elem p ($"table") a ks) -> values ($"repeatheader") a = [];
  plain_leaf : forall p n a ks, below ts (Elem p n a ks) -> In n [$"lf"; $"setx"; $"sety"] -> ks = [] }.
(** No text is justified: the word "block" is not in the style sheet nor in a style. *)
Definition unjustified (s : bytes) (kids : list node) : Prop :=
  ~ occurs ($"block") (text_field ($"style") kids) /\
  forall p n a ks v, below (under s kids) (Elem p n a ks) -> In v (values ($"style") a) -> ~ occurs ($"block") v.
End Plain.

(** [hyphenated s t]: [t] is [s] with hyphens inserted. *)
Inductive hyphenated : bytes -> bytes -> Prop :=
| H_nil : hyphenated [] []
| H_same c s t : hyphenated s t -> hyphenated (c :: s) (c :: t)
| H_hyphen s t : hyphenated s t -> hyphenated s ("-"%char :: t).
