(** Specification of loading, on documents as trees (C67-C69, C78, C79). *)
From Coq Require Import ZArith.
From Verif Require Import GoStr Num Style Class Instr Xml.

(** Documents as trees, and their tokens. *)
Inductive node := Elem (pos : nat) (name : bytes) (a : attrs) (kids : list node) | Chars (t : bytes) | Other.
Fixpoint flat (t : node) : list token :=
  match t with
  | Elem pos n a kids => TStart pos n a :: flat_map flat kids ++ [TEnd n]
  | Chars t => [TChar t]
  | Other => [TOther]
  end.
Definition flats (ts : list node) : list token := flat_map flat ts.

(** The character data directly inside an element. *)
Definition chars_of (kids : list node) : bytes := flat_map (fun k => match k with Chars t => t | _ => [] end) kids.
(** All character data below, in order. *)
Fixpoint deep_chars (t : node) : list bytes :=
  match t with Elem _ _ _ kids => flat_map deep_chars kids | Chars t => [t] | Other => [] end.
(** There is an element of this name below. *)
Fixpoint has_elem (n : bytes) (t : node) : bool :=
  match t with Elem _ m _ kids => beqb m n || existsb (has_elem n) kids | _ => false end.

(** The values of an attribute (XML forbids to repeat one, the decoder does not mind), and the
    number it gives: all must be numbers, the last one counts. *)
Definition values (k : bytes) (a : attrs) : list bytes := map snd (filter (fun kv => beqb (fst kv) k) a).
Fixpoint parsed {T} (parse : bytes -> option T) (l : list bytes) (x : T) : option T :=
  match l with [] => Some x | v :: l' => match parse v with Some y => parsed parse l' y | None => None end end.
Definition attr_value {T} (parse : bytes -> option T) (k : bytes) (a : attrs) (x : T) : option T := parsed parse (values k a) x.

Definition between0_10 (v : bytes) : option Z :=
  match parse_int v with Some n => if (0 <=? n)%Z && (n <=? 10)%Z then Some n else None | None => None end.

(** The elements that are instructions. *)
Definition known : list bytes := map (fun s => $ s)
  ["font"; "box"; "text"; "lf"; "setx"; "sety"; "image"; "table"; "tr"; "td"; "grid"; "gr"; "part"; "p"; "br"; "newpage"]%string.

Section Reads.
Context {F : Num}.
Variable parse_float : bytes -> option F.
(** Decoding style and class attributes of the element at a position, for the first or second
    time, added to given styles (C16-C25). *)
Variable styled : nat -> bool -> attrs -> Styled F -> option (Styled F).

Definition none : Styled F := mkStyled [] [].
Definition number (v : bytes) : option F := float_value zero parse_float v.

Definition rows_of (iss : list (instr F)) : list (xrow F) := flat_map (fun i => match i with ITableRow r => [r] | _ => [] end) iss.
Definition cells_of (iss : list (instr F)) : list (xcell F) := flat_map (fun i => match i with ITableCell r => [r] | _ => [] end) iss.
Definition gridrows_of (iss : list (instr F)) : list (xgridrow F) := flat_map (fun i => match i with IGridRow r => [r] | _ => [] end) iss.
Definition parts_of (iss : list (instr F)) : list (xgridpart F) := flat_map (fun i => match i with IGridPart r => [r] | _ => [] end) iss.
Definition no_text (iss : list (instr F)) : list (instr F) := filter (fun i => match i with ITextBlock _ => false | _ => true end) iss.
Definition text (t : bytes) : list (instr F) := match t with [] => [] | _ => [ITextBlock t] end.

(** A grid is valid if it has rows, all with the same number of areas, and the areas of its
    parts occur in them. *)
Definition valid_grid (rows : list (xgridrow F)) (parts : list (xgridpart F)) : Prop :=
  rows <> [] /\ (forall r r', In r rows -> In r' rows -> List.length (gr_areas r) = List.length (gr_areas r')) /\
  (forall p st area iss, In p parts -> p = XGridPart st area iss -> exists r, In r rows /\ In area (gr_areas r)).

(** font, image, p may contain elements Mutators and Classes, by an accident of embedding. *)
Definition field_styles (kids : list node) : Styled F :=
  mkStyled (flat_map (fun k => match k with Elem _ n _ _ => if beqb n ($"Mutators") then [[]] else [] | _ => [] end) kids)
           (flat_map (fun k => match k with Elem _ n _ ks => if beqb n ($"Classes") then [chars_of ks] else [] | _ => [] end) kids).

(** The elements whose tags are skipped inside td, grid and part. *)
Definition opens (n : bytes) (a : attrs) : Prop :=
  ~ In n known \/
  exists k, In (n, k) [($"lf", $"lines"); ($"setx", $"x"); ($"sety", $"y")] /\ attr_value number k a zero = None.

(** [reads t (Some i)]: element [t] is instruction [i]. [reads t None]: the contents of [t] are
    fine but its own attributes are not, or it is an invalid grid. *)
Inductive reads : node -> option (instr F) -> Prop :=
| R_font p a kids : reads (Elem p ($"font") a kids) (option_map IFont (styled p true a (field_styles kids)))
| R_image p a kids : reads (Elem p ($"image") a kids) (option_map (fun st => IImage st (chars_of kids)) (styled p true a (field_styles kids)))
| R_p p a kids : reads (Elem p ($"p") a kids) (option_map (fun st => IParagraph st (chars_of kids)) (styled p true a (field_styles kids)))
| R_lf p a kids x : attr_value number ($"lines") a zero = Some x -> reads (Elem p ($"lf") a kids) (Some (ILineFeed x))
| R_setx p a kids x : attr_value number ($"x") a zero = Some x -> reads (Elem p ($"setx") a kids) (Some (ISetX x))
| R_sety p a kids x : attr_value number ($"y") a zero = Some x -> reads (Elem p ($"sety") a kids) (Some (ISetY x))
| R_br p a kids : reads (Elem p ($"br") a kids) (Some ILineBreak)
| R_newpage p a kids : reads (Elem p ($"newpage") a kids) (Some IPageBreak)
| R_box p a kids iss : styled p false a none <> None -> strict kids iss ->
    reads (Elem p ($"box") a kids) (option_map (fun st => IBox st iss) (styled p true a none))
| R_text p a kids iss : styled p false a none <> None -> strict kids iss ->
    reads (Elem p ($"text") a kids) (option_map (fun st => IText st iss) (styled p true a none))
| R_table p a kids iss : strict kids iss ->
    reads (Elem p ($"table") a kids)
      (match attr_value between0_10 ($"repeatheader") a 0%Z with
       | Some n => option_map (fun st => ITable (XTable st n (rows_of iss))) (styled p true a none)
       | None => None end)
| R_tr p a kids iss : strict kids iss ->
    reads (Elem p ($"tr") a kids) (option_map (fun st => ITableRow (XRow st (cells_of iss))) (styled p true a none))
| R_td p a kids iss : loose kids iss ->
    reads (Elem p ($"td") a kids)
      (match attr_value parse_int ($"colspan") a 0%Z, attr_value parse_int ($"rowspan") a 0%Z with
       | Some cs, Some rs => option_map (fun st => ITableCell (XCell st cs rs iss)) (styled p true a none)
       | _, _ => None end)
| R_grid p a kids iss : loose kids iss -> valid_grid (gridrows_of iss) (parts_of iss) ->
    reads (Elem p ($"grid") a kids) (option_map (fun st => IGrid st (gridrows_of iss) (parts_of iss)) (styled p true a none))
| R_badgrid p a kids iss : loose kids iss -> ~ valid_grid (gridrows_of iss) (parts_of iss) ->
    reads (Elem p ($"grid") a kids) None
| R_gr p a kids : existsb (has_elem ($"gr")) kids = false ->
    reads (Elem p ($"gr") a kids)
      (option_map (fun st => IGridRow (XGridRow st (match rev (flat_map deep_chars kids) with [] => [] | t :: _ => split_byte sp t end)))
                  (styled p true a none))
| R_part p a kids iss : loose kids iss ->
    reads (Elem p ($"part") a kids)
      (option_map (fun st => IGridPart (XGridPart st (last (values ($"area") a) []) (no_text iss))) (styled p true a none))
(** The contents of header, footer, body, box, text, table, tr: one instruction for each element
    and each character data, in order. *)
with strict : list node -> list (instr F) -> Prop :=
| S_nil : strict [] []
| S_other ts l : strict ts l -> strict (Other :: ts) l
| S_chars t ts l : strict ts l -> strict (Chars t :: ts) (text t ++ l)
| S_elem t i ts l : reads t (Some i) -> strict ts l -> strict (t :: ts) (i :: l)
(** The contents of td, grid, part: elements with wrong attributes are left out, the tags of
    unknown elements are skipped. *)
with loose : list node -> list (instr F) -> Prop :=
| L_nil : loose [] []
| L_other ts l : loose ts l -> loose (Other :: ts) l
| L_chars t ts l : loose ts l -> loose (Chars t :: ts) (text t ++ l)
| L_elem t i ts l : reads t (Some i) -> loose ts l -> loose (t :: ts) (i :: l)
| L_drop t ts l : reads t None -> loose ts l -> loose (t :: ts) l
| L_open p n a kids ts l1 l2 : opens n a -> loose kids l1 -> loose ts l2 -> loose (Elem p n a kids :: ts) (l1 ++ l2).
End Reads.
