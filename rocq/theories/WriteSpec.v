(** Specification of writing text, and the laws of engines it is stated for. *)
From Coq Require Import QArith.
From Verif Require Import GoStr Num Style Class Instr Engine Lines LinesSpec RefEngine.
Local Open Scope num_scope.

(** The top-level commands between two states of a run. *)
Definition wrote {F : Num} {eng : Engine F} (s s' : PS F eng) (cmds : list (cmd F)) : Prop :=
  exists evs, ps_trace s' = ps_trace s ++ evs /\ map ev_cmd evs = cmds.
(** The state in which the lines of a text are measured: font and colour of the text are set. *)
Definition text_state {F : Num} {eng : Engine F} (sty : Styles F) (s : PS F eng) : PS F eng :=
  snd (emit (SetTextColor (R (TextColor (SColor sty))) (G (TextColor (SColor sty))) (B (TextColor (SColor sty)))) (snd (emit (ChangeFont (SFont sty)) s))).
Section Write.
Context {F : Num}.
(** The commands writing the words of a line as they are. *)
Definition plain_items (items : list (textItem F)) : list (cmd F) :=
  flat_map (fun it => [Simple (ChangeFont (SFont (i_sty it))); WriteText (i_text it)]) items.
(** The commands writing the words of a line without spaces, moving on to [xs]. *)
Definition moved_items (items : list (textItem F)) (xs : list F) : list (cmd F) :=
  flat_map (fun p => [Simple (ChangeFont (SFont (i_sty (fst p)))); WriteText (trim is_sp (i_text (fst p))); Simple (SetX (snd p))]) (combine items xs).
(** Where a line begins. *)
Definition line_start (sty : Styles F) (width x : F) (line : textLine F) : list (cmd F) :=
  if beqb (HAlign (SAlign sty)) ($"left") then [Simple (SetX x)]
  else if beqb (HAlign (SAlign sty)) ($"center") then [Simple (SetX (x + (width - l_width line) / of_Z 2))]
  else if beqb (HAlign (SAlign sty)) ($"right") then [Simple (SetX (x + width - l_width line))]
  else [].
Definition line_end (sty : Styles F) : cmd F := Simple (LineFeed (LineSpacing (SDim sty))).
Definition line_cmds (sty : Styles F) (width x : F) (line : textLine F) : list (cmd F) :=
  line_start sty width x line ++ plain_items (l_items line) ++ [line_end sty].
(** A line of block text is stretched if it has two words or more and is not marked. *)
Definition stretched (line : textLine F) : bool := (2 <=? List.length (l_items line))%nat && negb (l_paragraph line).
Definition block_cmds (sty : Styles F) (x : F) (line : textLine F) (cmds : list (cmd F)) : Prop :=
  if stretched line
  then exists xs, List.length xs = List.length (l_items line) /\ cmds = Simple (SetX x) :: moved_items (l_items line) xs ++ [line_end sty]
  else cmds = Simple (SetX x) :: plain_items (l_items line) ++ [line_end sty].
(** What comes before the lines: the font and the colour of the text, then the fonts changed to
    while measuring. *)
Definition start_cmds (sty : Styles F) (fonts : list (Font F)) : list (cmd F) :=
  Simple (ChangeFont (SFont sty)) ::
  Simple (SetTextColor (R (TextColor (SColor sty))) (G (TextColor (SColor sty))) (B (TextColor (SColor sty)))) ::
  map (fun f => Simple (ChangeFont f)) fonts.
End Write.

(** Engines that measure text by its font alone, and write it on one line from left to right
    without breaking the page. *)
Record writer (eng : Engine NumQ) (tw : Font NumQ -> bytes -> Q) (fh : Font NumQ -> Q) (font : est eng -> Font NumQ) : Prop := mkWriter {
  W_width : forall e s, textWidth e s = tw (font e) s;
  W_height : forall e, fontHeight e = fh (font e);
  W_set : forall f e, font (simple (ChangeFont f) e) = f /\ getXY (simple (ChangeFont f) e) = getXY e;
  W_color : forall r g b e, font (simple (SetTextColor r g b) e) = font e /\ getXY (simple (SetTextColor r g b) e) = getXY e;
  W_x : forall x e, font (simple (SetX x) e) = font e /\ snd (getXY (simple (SetX x) e)) = snd (getXY e) /\
    ((0 <= x)%Q -> fst (getXY (simple (SetX x) e)) = x);
  W_feed : forall n e, font (simple (LineFeed n) e) = font e /\
    ((0 <= n * fontHeight e)%Q -> (snd (getXY (simple (LineFeed n) e)) == snd (getXY e) + n * fontHeight e)%Q);
  W_write : forall s e, exists e', Engine.writeText s e = EDone e' /\ font e' = font e /\
    (fst (getXY e') == fst (getXY e) + textWidth e s)%Q /\ snd (getXY e') = snd (getXY e);
  W_page : forall e : est eng, (forall f, currentPage (simple (ChangeFont f) e) = currentPage e) /\
    (forall r g b, currentPage (simple (SetTextColor r g b) e) = currentPage e)
}.
(** The width of the words of a line without spaces. *)
Definition word_width (tw : Font NumQ -> bytes -> Q) (it : textItem NumQ) : Q := tw (SFont (i_sty it)) (trim is_sp (i_text it)).
Definition words_width (tw : Font NumQ -> bytes -> Q) (items : list (textItem NumQ)) : Q := fold_right (fun it a => word_width tw it + a)%Q 0%Q items.
(** Every word is followed by a gap: [xs] is where the next one begins. *)
Fixpoint evenly (tw : Font NumQ -> bytes -> Q) (gap x : Q) (items : list (textItem NumQ)) (xs : list Q) : Prop :=
  match items, xs with
  | [], [] => True
  | it :: items', x' :: xs' => (x' == x + word_width tw it + gap)%Q /\ evenly tw gap x' items' xs'
  | _, _ => False
  end.
(** A stretched line (whose words are on the page: gofpdf counts negative coordinates from the
    right): equal gaps between the words such that the last word ends 0.1 units left
    of the right edge. *)
Definition filled_cmds (tw : Font NumQ -> bytes -> Q) (width : Q) (sty : Styles NumQ) (x : Q) (line : textLine NumQ) (cmds : list (cmd NumQ)) : Prop :=
  stretched line = true ->
  exists gap xs, cmds = Simple (F:=NumQ) (SetX (F:=NumQ) x) :: moved_items (F:=NumQ) (l_items line) xs ++ [line_end (F:=NumQ) sty] /\
    ((0 <= x)%Q -> Forall (fun x' => 0 <= x')%Q xs -> evenly tw gap x (l_items line) xs) /\
    (words_width tw (l_items line) + inject_Z (Z.of_nat (List.length (l_items line)) - 1) * gap == width - (1 # 10))%Q.
(** The reference engine without automatic page breaks is one. *)
Definition LineEngine : Engine NumQ := mkEngine NumQ RS
  (@getXY _ RefEngine) (@printableArea _ RefEngine) (@pageWidth _ RefEngine) (@pageHeight _ RefEngine) (@margins _ RefEngine)
  (@fontHeight _ RefEngine) (@textWidth _ RefEngine) (@currentPage _ RefEngine) (@engError _ RefEngine) (@simple _ RefEngine)
  (@addPage _ RefEngine) (fun s e => EDone (r_put s e)) (@writePDF _ RefEngine) (@writeResult _ RefEngine).
