(** Specification of the heights at which words are printed (C106). *)
From Coq Require Import QArith.
From Verif Require Import GoStr Num Style Class Instr Engine Layout LayoutSpec Grid Table ProcSpec CellSpec PlaceSpec.
From Verif Require TextSpec.
Local Open Scope Q_scope.

(** Engines on which the font set last tells the width of texts and the height of lines. *)
Record metrics (eng : Engine NumQ) (tw : Font NumQ -> bytes -> Q) (fh : Font NumQ -> Q) : Prop := mkMetrics {
  K_width : forall f (e : est eng) s, textWidth (simple (ChangeFont f) e) s = tw f s;
  K_height : forall f (e : est eng), fontHeight (simple (ChangeFont f) e) = fh f;
  K_page : forall f (e : est eng), currentPage (simple (ChangeFont f) e) = currentPage e
}.
(** Texts without the page number. *)
Definition cp_free {F : Num} (i : instr F) : Prop :=
  match i with ITextBlock t | IParagraph _ t => ~ TextSpec.occurs ($"{cp}") t | _ => True end.

Section Tops.
Variable h : Q.
(** The words printed by commands, in fonts of height [h], and the heights of their upper edges,
    beginning at [y]. Heights are unknown after moving to a negative one (which gofpdf counts from
    the lower edge of the page), and after all commands other than these. *)
Fixpoint tops (y : option Q) (cmds : list (cmd NumQ)) : list (option Q * bytes) :=
  match cmds with
  | [] => []
  | Simple (SetY v) :: cmds' => tops (if Qle_bool 0 v then Some v else None) cmds'
  | Simple (LineFeed n) :: cmds' => tops (option_map (fun v => v + n * h) y) cmds'
  | Simple (SetX _) :: cmds' | Simple (ChangeFont _) :: cmds' | Simple (SetTextColor _ _ _) :: cmds' => tops y cmds'
  | WriteText t :: cmds' => (y, t) :: tops y cmds'
  | _ :: cmds' => tops None cmds'
  end.
(** A word lies between the heights [a] and [b]. *)
Definition inside (a b : Q) (p : option Q * bytes) : Prop :=
  match fst p with Some y => a <= y /\ y + h <= b | None => False end.
End Tops.

(** A cell of style [sty] drawn with the corners [x0], [y0] and [x1], [y1]: its frame, and words of
    height [h] inside its padding. *)
Definition cell_printed (h x0 y0 x1 y1 : Q) (sty : Styles NumQ) (cmds : list (cmd NumQ)) : Prop :=
  let pad := Padding (SBox sty) in
  exists frame text after, cmds = frame ++ text ++ after /\ draws_box (F:=NumQ) x0 y0 x1 y1 sty frame /\ silent after /\
    Forall (inside h (y0 + QTop pad) (y1 - QBottom pad)) (tops h None text).

(** What is assumed of a cell: no height of its own, only text without page numbers, in fonts of
    height [hgt]; block text at the top. *)
Definition plain_cell (mut : Styled NumQ -> Styles NumQ -> Styles NumQ) (fh : Font NumQ -> Q) (hgt : Q) (x : tcell NumQ) : Prop :=
  let sty := c_sty x in
  Height (SDim sty) <= 0 /\ (forall i, In i (c_iss x) -> text_only i = true /\ cp_free i) /\ 0 <= LineSpacing (SDim sty) * hgt /\
  (forall f, In f (SFont sty :: fonts_of mut sty (c_iss x)) -> fh f == hgt) /\
  (HAlign (SAlign sty) = $"block" -> ~ In (VAlign (SAlign sty)) [$"middle"; $"bottom"]).
