(** Specification of processing a document: what the statements of C55-C65 are about. *)
From Verif Require Import GoStr Num Style Class Instr Engine Layout LayoutSpec Grid Table Lines LinesSpec WriteSpec Proc ProcView DrawSpec.
Local Open Scope num_scope.

Section Spec.
Context {F : Num}.

(** The ambient style is the default style in everything except the font. *)
Definition ambient {eng : Engine F} (s : PS F eng) : Prop :=
  let d := @DefaultStyle F in
  exists f, ps_sty s = mkStyles f (SBox d) (SDim d) (ColumnWidth d) (SAlign d) (SColor d) (LineWidth d).
(** A run ends without panic, and in an ambient style. *)
Definition ends_ambient {eng : Engine F} {A} (r : res eng A) : Prop :=
  match r with Ok _ s' => ambient s' | Panic => False | Diverge => True end.

(** The font in which the first text [t] of a list of commands is written: the one of the last
    ChangeFont before it. *)
Fixpoint font_of_text (t : bytes) (now : option (Font F)) (l : list (cmd F)) : option (Font F) :=
  match l with
  | [] => None
  | Simple (ChangeFont f) :: l' => font_of_text t (Some f) l'
  | WriteText t' :: l' => if beqb t t' then now else font_of_text t now l'
  | _ :: l' => font_of_text t now l'
  end.
(** The last font among [fs], or else [f]. *)
Definition last_font (fs : list (Font F)) (f : Font F) : Font F := List.last fs f.

(** The engine can be given the cursor position [x], [y]. *)
Definition settable {eng : Engine F} (x y : F) : Prop :=
  forall e : est eng, getXY (simple (SetY y) (simple (SetX x) e)) = (x, y).

(** The engine made no callback during the calls of a trace. *)
Definition uninterrupted (evs : list (event F)) : Prop := forall e, In e evs -> ev_calls e = [].
Definition is_newpage (i : instr F) : bool := match i with IPageBreak => true | _ => false end.
Definition newpages (iss : list (instr F)) : nat := List.length (filter is_newpage iss).

(** Engines that do not break pages inside callbacks: while a callback runs the engine is in a
    [quiet] state, which no simple command ends, and in which text is written without calling back. *)
Inductive calls_in {eng : Engine F} (P : cb -> est eng -> Prop) : eprog (est eng) -> Prop :=
| CI_done : forall e, calls_in P (EDone e)
| CI_call : forall c e k, P c e -> (forall e', calls_in P (k e')) -> calls_in P (ECall c e k).
Record quiet_engine (eng : Engine F) (quiet : est eng -> Prop) : Prop := mkQuiet {
  Q_page : forall e : est eng, calls_in (fun _ => quiet) (addPage e);
  Q_text : forall t (e : est eng), calls_in (fun _ => quiet) (Engine.writeText t e);
  Q_pdf : forall e : est eng, calls_in (fun _ => quiet) (writePDF e);
  Q_simple : forall c (e : est eng), quiet e -> quiet (simple c e);
  Q_write : forall t (e : est eng), quiet e -> exists e', Engine.writeText t e = EDone e' /\ quiet e'
}.
(** Engines that call the header function whenever a page is added. *)
Inductive calls_header {eng : Engine F} : eprog (est eng) -> Prop :=
| CH_now : forall e k, calls_header (ECall Header e k)
| CH_later : forall c e k, (forall e', calls_header (k e')) -> calls_header (ECall c e k).

(** No command of a trace, callbacks included, is WritePDF. *)
Definition writes_nothing (evs : list (event F)) : Prop := ~ In WritePDF (flat evs).

Section Run.
Context (env : Env F) {eng : Engine F} (callback : cb -> M eng unit).
(** Instructions performed one after the other: the engine calls of each. *)
Inductive performs : list (instr F) -> PS F eng -> list (list (event F)) -> PS F eng -> Prop :=
| P_nil : forall s, performs [] s [] s
| P_cons : forall i iss s evs s1 pieces s2,
    processInstruction env callback i s = Ok tt s1 -> ps_trace s1 = ps_trace s ++ evs ->
    performs iss s1 pieces s2 -> performs (i :: iss) s (evs :: pieces) s2.
(** Instructions that mean nothing outside tables and texts. *)
Definition inner_only (i : instr F) : bool :=
  match i with ITextBlock _ | IParagraph _ _ | ILineBreak | ITableRow _ | ITableCell _ | IGridRow _ | IGridPart _ => true | _ => false end.

(** The height of the text in a box, measured in state [s], and the state afterwards. *)
Definition box_height (sty : Styles F) (iss : list (instr F)) (width : F) (s : PS F eng) (h : F) (s1 : PS F eng) : Prop :=
  if Height (SDim sty) <=? zero then
    match iss with
    | [] => h = fontHeight (ps_eng s) /\ s1 = s
    | _ => textHeightFnc (e_mut env) (e_hyph env) sty iss width sty s = (h, s1)
    end
  else h = Height (SDim sty) /\ s1 = s.
End Run.

(** Coordinates counted from the left or upper edge: gofpdf counts negative ones from the
    opposite edge. *)
Definition from_edge (v : F) : Prop := leb zero v = true.
(** Engines that put the cursor where they are told to. *)
Record places (eng : Engine F) : Prop := mkPlaces {
  L_x : forall x (e : est eng), from_edge x -> fst (getXY (simple (SetX x) e)) = x;
  L_x_y : forall x (e : est eng), snd (getXY (simple (SetX x) e)) = snd (getXY e);
  L_y : forall y (e : est eng), from_edge y -> snd (getXY (simple (SetY y) e)) = y;
  L_y_x : forall y (e : est eng), from_edge (fst (getXY e)) -> fst (getXY (simple (SetY y) e)) = fst (getXY e);
  L_font : forall f (e : est eng), getXY (simple (ChangeFont f) e) = getXY e;
  L_color : forall r g b (e : est eng), getXY (simple (SetTextColor r g b) e) = getXY e
}.
(** The commands writing a text of the given width from [x] on (WriteSpec.v). *)
Definition text_written (env : Env F) {eng : Engine F} (sty : Styles F) (iss : list (instr F)) (width x : F) (s : PS F eng) (cmds : list (cmd F)) : Prop :=
  if beqb (HAlign (SAlign sty)) ($"block") then
    exists lines s1 css, textLinesHyphenated (e_mut env) (e_hyph env) iss width sty (text_state sty s) = (lines, s1) /\
      Forall2 (block_cmds sty x) lines css /\
      cmds = start_cmds sty (text_fonts (e_mut env) true (currentPage (ps_eng (text_state sty s))) sty iss) ++ List.concat css
  else
    exists lines s1, textLines (e_mut env) iss width sty (text_state sty s) = (lines, s1) /\
      cmds = start_cmds sty (text_fonts (e_mut env) false (currentPage (ps_eng (text_state sty s))) sty iss) ++
             flat_map (line_cmds sty width x) lines.
(** What a box with the corners [x0], [y0] and [x1], [y1] looks like (C27). *)
Definition box_picture (x0 y0 x1 y1 : F) (sty : Styles F) : list (painted F) :=
  let h := LineWidth sty / of_Z 2 in
  let bd := Border (SBox sty) in
  let right := x0 + (x1 - x0) in
  [Filled (Background (SColor sty)) (x0 + h) (y0 + h) (x1 - x0 - of_Z 2 * h) (y1 - y0 - of_Z 2 * h);
   Stroked (LineWidth sty) (Foreground (SColor sty))
     ((if (0 <? QTop bd)%Z then [((x0 - h, y0), (right, y0))] else []) ++
      (if (0 <? QRight bd)%Z then [((right, y0), (right, y1))] else []) ++
      (if (0 <? QBottom bd)%Z then [((right, y1), (x0, y1))] else []) ++
      (if (0 <? QLeft bd)%Z then [((x0, y1), (x0, y0))] else []))].
(** The commands that draw it. *)
Definition draws_box (x0 y0 x1 y1 : F) (sty : Styles F) (cmds : list (cmd F)) : Prop :=
  forall p, new_pen p -> paint p cmds = box_picture x0 y0 x1 y1 sty.
(** The page is broken before a box of height [h] if it is not prevented and the box does not
    fit above the bottom margin. *)
Definition box_break {eng : Engine F} (callback : cb -> M eng unit) (h : F) (s1 s2 : PS F eng) : Prop :=
  let '(_, _, _, bottom) := margins (ps_eng s1) in
  if negb (ps_prevent s1) && (pageHeight (ps_eng s1) - bottom <=? snd (getXY (ps_eng s1)) + h)
  then add_page callback s1 = Ok tt s2 else s2 = s1.
(** The engine was last given the ambient font and text colour. *)
Definition reset_cmds {eng : Engine F} (s : PS F eng) : list (cmd F) :=
  let c := TextColor (SColor (ps_sty s)) in
  [Simple (ChangeFont (SFont (ps_sty s))); Simple (SetTextColor (R c) (G c) (B c))].
Definition restored {eng : Engine F} (s : PS F eng) : Prop :=
  exists before, map ev_cmd (ps_trace s) = before ++ reset_cmds s.
End Spec.
