(** Specification of what a document writes as a whole (C89, C90): which texts, in which styles
    and in which order, and the words of each. *)
From Verif Require Import GoStr Num Style Class Instr Engine Lines LinesSpec LinesView Proc.

Section Output.
Context {F : Num} (env : Env F).

(** The texts written by a list of engine calls, those made inside callbacks not counted. *)
Definition written (evs : list (event F)) : list bytes :=
  flat_map (fun e => match ev_cmd e with WriteText t => [t] | _ => [] end) evs.

(** The words of a text on a page. *)
Definition words (page : Z) (sty : Styles F) (iss : list (instr F)) : list bytes :=
  map snd (flat_map (instr_words (e_mut env) page sty) iss).
(** A text in style [sty] written as the list [out], its page number being [page]: one word each,
    spaces not considered. In block text, if the hyphenator loses nothing of the words, the
    letters of the words are written, and after some of them, but not at the end, a hyphen. *)
Definition text_out_on (page : Z) (sty : Styles F) (iss : list (instr F)) (out : list bytes) : Prop :=
  if beqb (HAlign (SAlign sty)) ($"block") then
    lossless (e_hyph env) (e_mut env) page sty iss ->
    exists ps : list (bool * bytes),
      unspaced (List.concat out) = flat_map (fun p : bool * bytes => if fst p then snd p ++ ["-"%char] else snd p) ps /\
      flat_map snd ps = List.concat (words page sty iss) /\
      forall a p, ps = a ++ [p] -> fst p = false
  else map unspaced out = words page sty iss.
Definition text_out (sty : Styles F) (iss : list (instr F)) (out : list bytes) : Prop := exists page, text_out_on page sty iss out.

(** A text to be written and its style. *)
Definition styled_text : Type := Styles F * list (instr F).
(** A document is processed in the default style, with some font. *)
Definition ambient_style (sty : Styles F) : Prop :=
  let d := @DefaultStyle F in
  exists f, sty = mkStyles f (SBox d) (SDim d) (ColumnWidth d) (SAlign d) (SColor d) (LineWidth d).

(** The boxes of a cell. *)
Inductive shows_boxes : list (instr F) -> list styled_text -> Prop :=
| B_nil : shows_boxes [] []
| B_box : forall st biss iss l sty, ambient_style sty -> shows_boxes iss l ->
    shows_boxes (IBox st biss :: iss) ((e_mut env st sty, biss) :: l)
| B_other : forall i iss l, (forall st biss, i <> IBox st biss) -> shows_boxes iss l -> shows_boxes (i :: iss) l.
(** Cell [k] of a row with [n] cells and style [row]: its text, then its boxes. *)
Definition shows_cell (row : Styles F) (n k : nat) (c : xcell F) (l : list styled_text) : Prop :=
  match c with XCell st _ _ iss =>
    let sty := if Nat.eqb k 0 then e_mut_sel env ($"first-cell") st row
               else if Nat.eqb k (n - 1) then e_mut_sel env ($"last-cell") st row else e_mut env st row in
    exists l', l = (sty, iss) :: l' /\ shows_boxes iss l'
  end.
(** Row [i] of a table with [n] rows and style [tab]: its cells from left to right. *)
Definition shows_row (tab : Styles F) (n i : nat) (r : xrow F) (l : list styled_text) : Prop :=
  match r with XRow st cells =>
    let sty := if Nat.eqb i 0 then e_mut_sel env ($"first-row") st tab
               else if Nat.eqb i (n - 1) then e_mut_sel env ($"last-row") st tab else e_mut env st tab in
    exists ls, l = List.concat ls /\ List.length ls = List.length cells /\
      forall k c lk, nth_error cells k = Some c -> nth_error ls k = Some lk -> shows_cell sty (List.length cells) k c lk
  end.
(** Row [i] of the table as drawn: there may be empty rows at the end, claimed by row spans. *)
Definition shows_nth (tab : Styles F) (rows : list (xrow F)) (i : nat) (l : list styled_text) : Prop :=
  match nth_error rows i with Some r => shows_row tab (List.length rows) i r l | None => l = [] end.
(** The rows from the first to the last, some of them after a repetition [hs] of the header rows. *)
Definition shows_table (st : Styled F) (repeat : Z) (rows : list (xrow F)) (l : list styled_text) : Prop :=
  exists sty blocks, ambient_style sty /\ l = List.concat blocks /\ List.length rows <= List.length blocks /\
  forall i b, nth_error blocks i = Some b -> exists hs r,
    b = List.concat hs ++ r /\ shows_nth (e_mut env st sty) rows i r /\
    (hs = [] \/ 0 < i /\ List.length hs = Nat.min (Z.to_nat repeat) (List.length blocks) /\
      forall k h, nth_error hs k = Some h -> shows_nth (e_mut env st sty) rows k h).
(** An instruction outside of texts and tables. *)
Definition shows (i : instr F) (l : list styled_text) : Prop :=
  match i with
  | IText st iss | IBox st iss => exists sty, ambient_style sty /\ l = [(e_mut env st sty, iss)]
  | ITable (XTable st repeat rows) => shows_table st repeat rows l
  | _ => l = []
  end.

(** The texts of a list of instructions, in order, each written once. *)
Definition writes_texts (iss : list (instr F)) (out : list bytes) : Prop :=
  exists ls outs, Forall2 shows iss ls /\
    Forall2 (fun p o => text_out (fst p) (snd p) o) (List.concat ls) outs /\ out = List.concat outs.

(** [call_in evs c sub]: somewhere under the events [evs] the engine calls back [c], making the
    calls [sub]. *)
Inductive call_in : list (event F) -> cb -> list (event F) -> Prop :=
| K_now : forall evs cmd calls c sub, In (Ev cmd calls) evs -> In (c, sub) calls -> call_in evs c sub
| K_deep : forall evs cmd calls c sub c' sub', In (Ev cmd calls) evs -> In (c, sub) calls -> call_in sub c' sub' -> call_in evs c' sub'.
End Output.
