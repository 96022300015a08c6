(** Specification of where words are printed (C98, C99, C100). *)
From Coq Require Import QArith.
From Verif Require Import GoStr Num Style Class Instr Engine.
Local Open Scope Q_scope.

(** The states a method of the engine can end in, whatever the callbacks do meanwhile. *)
Inductive ends {E : Type} : eprog E -> E -> Prop :=
| Ends_done : forall e, ends (EDone e) e
| Ends_call : forall c e k e1 e', ends (k e1) e' -> ends (ECall c e k) e'.

(** Texts without line feeds. *)
Definition one_line (t : bytes) : Prop := ~ In lf t.

(** Engines that measure text by its font and print it from left to right: what is known about
    texts that end left of [right]. Printing may break the page in the meantime. *)
Record printer (eng : Engine NumQ) (tw : Font NumQ -> bytes -> Q) (right : Q) : Prop := mkPrinter {
  P_width : forall f (e : est eng) s, textWidth (simple (ChangeFont f) e) s = tw f s;
  P_font : forall f (e : est eng), fst (getXY (simple (ChangeFont f) e)) = fst (getXY e) /\
    currentPage (simple (ChangeFont f) e) = currentPage e;
  P_color : forall r g b (e : est eng), fst (getXY (simple (SetTextColor r g b) e)) = fst (getXY e);
  P_x : forall x (e : est eng), 0 <= x -> fst (getXY (simple (SetX (F:=NumQ) x) e)) = x;
  P_write : forall t (e e' : est eng), one_line t -> (fst (getXY e) + textWidth e t <= right)%Q -> ends (Engine.writeText t e) e' ->
    (fst (getXY e') == fst (getXY e) + textWidth e t)%Q
}.

(** Fonts whose blanks are at least a tenth of a unit wide. *)
Record regular (tw : Font NumQ -> bytes -> Q) (f : Font NumQ) : Prop := mkRegular {
  R_nonneg : forall t, 0 <= tw f t;
  R_blank : forall t, tw f t + (1 # 10) <= tw f (sp :: t);
  R_trim : forall t, tw f (trim is_sp t) <= tw f t
}.
(** The fonts of a text. *)
Definition fonts_of (mut : Styled NumQ -> Styles NumQ -> Styles NumQ) (sty : Styles NumQ) (iss : list (instr NumQ)) : list (Font NumQ) :=
  map (fun is => match is with IParagraph st _ => SFont (mut st sty) | _ => SFont sty end) iss.

Section Rows.
Variable tw : Font NumQ -> bytes -> Q.
(** A printed word: its left edge, if that is known, its font and its letters. *)
Record word := mkWord { w_left : option Q; w_font : Font NumQ; w_text : bytes }.
(** The rows of words printed by commands, with the font [f] at [x]. Positions are unknown after
    moving to a negative position, and after all commands other than these. *)
Fixpoint rows (f : Font NumQ) (x : option Q) (row : list word) (cmds : list (cmd NumQ)) : list (list word) :=
  match cmds with
  | [] => [row]
  | Simple (ChangeFont f') :: cmds' => rows f' x row cmds'
  | Simple (SetX x') :: cmds' => rows f (if Qle_bool 0 x' then Some x' else None) row cmds'
  | Simple (LineFeed _) :: cmds' => row :: rows f None [] cmds'
  | WriteText t :: cmds' => rows f (option_map (fun x => x + tw f t) x) (row ++ [mkWord x f t]) cmds'
  | _ :: cmds' => rows f None row cmds'
  end.
(** The words of a row lie between [a] and [b], one right of the other. *)
Fixpoint between (a b : Q) (row : list word) : Prop :=
  match row with
  | [] => a <= b
  | mkWord (Some l) f t :: row' => a <= l /\ between (l + tw f t) b row'
  | mkWord None _ _ :: _ => False
  end.
(** A row has two words or more, or its word fits into [width] with a blank in front. *)
Definition fits (width : Q) (row : list word) : Prop :=
  match row with
  | [] => False
  | [mkWord _ f t] => tw f (sp :: t) <= width
  | _ => True
  end.
(** The left edge of the first word and the right edge of the last one. *)
Definition row_start (row : list word) : option Q := match row with [] => None | w :: _ => w_left w end.
Definition row_end (row : list word) : option Q :=
  match rev row with [] => None | w :: _ => option_map (fun l => l + tw (w_font w) (w_text w)) (w_left w) end.
(** What a blank in front of the first word would take. *)
Definition blank_before (row : list word) : Q :=
  match row with [] => 0 | w :: _ => tw (w_font w) (sp :: w_text w) - tw (w_font w) (w_text w) end.
End Rows.

(** Commands that print no words. *)
Definition silent (cmds : list (cmd NumQ)) : Prop := forall t, ~ In (WriteText t) cmds.

Section Feeds.
Context {F : Num}.
(** The lines of words ended by a line feed: the fonts of the words, and how many lines of which
    font the cursor moves down. *)
Fixpoint feeds (f : Font F) (row : list (Font F)) (cmds : list (cmd F)) : list (list (Font F) * (F * Font F)) :=
  match cmds with
  | [] => []
  | Simple (ChangeFont f') :: cmds' => feeds f' row cmds'
  | Simple (LineFeed n) :: cmds' => (row, (n, f)) :: feeds f [] cmds'
  | WriteText _ :: cmds' => feeds f (row ++ [f]) cmds'
  | _ :: cmds' => feeds f row cmds'
  end.
(** How many words the commands write. *)
Fixpoint texts (cmds : list (cmd F)) : nat :=
  match cmds with [] => O | WriteText _ :: cmds' => S (texts cmds') | _ :: cmds' => texts cmds' end.
End Feeds.
(** A line is as high as its highest word: the next one is printed below all of its words. *)
Definition below (fh : Font NumQ -> Q) (line : list (Font NumQ) * (Q * Font NumQ)) : Prop :=
  let '(row, (n, f)) := line in forall f', In f' row -> fh f' <= n * fh f.
