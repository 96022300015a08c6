(** Specification of loading: whole documents (C69). *)
From Coq Require Import ZArith.
From Verif Require Import GoStr Num Style Class Instr Xml Load LoadSpec.

(** The contents of the children with a name, one after the other. *)
Definition under (n : bytes) (kids : list node) : list node :=
  flat_map (fun k => match k with Elem _ m _ ks => if beqb m n then ks else [] | _ => [] end) kids.
(** The texts of the children with a name. *)
Definition field_values (n : bytes) (kids : list node) : list bytes :=
  flat_map (fun k => match k with Elem _ m _ ks => if beqb m n then [chars_of ks] else [] | _ => [] end) kids.

(** Elements whose contents are not read as instructions. *)
Definition leaves : list bytes := map (fun s => $ s) ["font"; "image"; "p"; "lf"; "setx"; "sety"; "br"; "newpage"; "gr"]%string.
(** A node somewhere inside, with no leaf around it. *)
Inductive inside : list node -> node -> Prop :=
| I_here ts t : In t ts -> inside ts t
| I_deep ts p n a ks t : In (Elem p n a ks) ts -> ~ In n leaves -> inside ks t -> inside ts t.
(** The contents of the header, footer and body, and of the boxes, texts, tables and rows in
    them, at any depth. *)
Definition sections : list bytes := map (fun s => $ s) ["header"; "footer"; "body"]%string.
Definition blocks : list bytes := map (fun s => $ s) ["box"; "text"; "table"; "tr"]%string.
Inductive strict_contents (kids : list node) : list node -> Prop :=
| SC_section n : In n sections -> strict_contents kids (under n kids)
| SC_block n p m a ks : In n sections -> inside (under n kids) (Elem p m a ks) -> In m blocks -> strict_contents kids ks.
(** Only blocks around. *)
Inductive only_blocks : list node -> node -> Prop :=
| O_here ts t : In t ts -> only_blocks ts t
| O_deep ts p n a ks t : In (Elem p n a ks) ts -> In n blocks -> only_blocks ks t -> only_blocks ts t.

(** Taking away the tags of one unknown element inside a td, grid or part. *)
Inductive untagged : list node -> list node -> Prop :=
| U_here p c a q n b ks1 ks ks2 l r : In c [$"td"; $"grid"; $"part"] -> ~ In n known ->
    untagged (l ++ Elem p c a (ks1 ++ Elem q n b ks :: ks2) :: r) (l ++ Elem p c a (ks1 ++ ks ++ ks2) :: r)
| U_deep p n a ks ks' l r : ~ In n leaves -> untagged ks ks' ->
    untagged (l ++ Elem p n a ks :: r) (l ++ Elem p n a ks' :: r).

(** The tables in an instruction, at any depth. *)
Inductive has_table {F} : instr F -> xtable F -> Prop :=
| T_here t : has_table (ITable t) t
| T_box st iss i t : In i iss -> has_table i t -> has_table (IBox st iss) t
| T_text st iss i t : In i iss -> has_table i t -> has_table (IText st iss) t
| T_table st n rows r t : In r rows -> has_table (ITableRow r) t -> has_table (ITable (XTable st n rows)) t
| T_row st cells c t : In c cells -> has_table (ITableCell c) t -> has_table (ITableRow (XRow st cells)) t
| T_cell st cs rs iss i t : In i iss -> has_table i t -> has_table (ITableCell (XCell st cs rs iss)) t
| T_grid st rows parts p t : In p parts -> has_table (IGridPart p) t -> has_table (IGrid st rows parts) t
| T_part st area iss i t : In i iss -> has_table i t -> has_table (IGridPart (XGridPart st area iss)) t.

Section Doc.
Context {F : Num}.
Variable parse_float : bytes -> option F.
Variable styled : nat -> bool -> attrs -> Styled F -> option (Styled F).

Definition number_field (n : bytes) (kids : list node) : option F := parsed (number parse_float) (field_values n kids) zero.
Definition text_field (n : bytes) (kids : list node) : bytes := last (field_values n kids) [].

(** The document given by the contents of the root element. *)
Record document_is (kids : list node) (doc : Document F) : Prop := {
  is_author : m_author (doc_meta F doc) = text_field ($"author") (under ($"meta") kids);
  is_creator : m_creator (doc_meta F doc) = text_field ($"creator") (under ($"meta") kids);
  is_subject : m_subject (doc_meta F doc) = text_field ($"subject") (under ($"meta") kids);
  is_orientation : p_orientation F (doc_page F doc) = text_field ($"orientation") (under ($"page") kids);
  is_format : p_format F (doc_page F doc) = text_field ($"format") (under ($"page") kids);
  is_left : Some (QLeft (p_margins F (doc_page F doc))) = number_field ($"left") (under ($"margins") (under ($"page") kids));
  is_top : Some (QTop (p_margins F (doc_page F doc))) = number_field ($"top") (under ($"margins") (under ($"page") kids));
  is_right : Some (QRight (p_margins F (doc_page F doc))) = number_field ($"right") (under ($"margins") (under ($"page") kids));
  is_bottom : Some (QBottom (p_margins F (doc_page F doc))) = number_field ($"bottom") (under ($"margins") (under ($"page") kids));
  is_style : doc_style F doc = text_field ($"style") kids;
  is_styled : forall p n a ks, In (Elem p n a ks) kids -> In n [$"header"; $"footer"; $"body"] -> styled p false a none <> None;
  is_header : strict parse_float styled (under ($"header") kids) (doc_header F doc);
  is_footer : strict parse_float styled (under ($"footer") kids) (doc_footer F doc);
  is_body : strict parse_float styled (under ($"body") kids) (doc_body F doc) }.

(** The tokens of a document: anything but elements, the root element, and any rest. *)
Definition no_elements (ts : list node) : Prop := forall p n a ks, ~ In (Elem p n a ks) ts.
Definition tokens_of (toks : list token) (kids : list node) : Prop :=
  exists prolog p a rest, no_elements prolog /\ toks = flats prolog ++ flat (Elem p ($"document") a kids) ++ rest.
End Doc.
