(** Specification of everything a document draws (C108, C109): texts, frames and images, in
    which order. *)
From Verif Require Import GoStr Num Style Class Instr Engine Layout LayoutSpec Lines LinesSpec LinesView Proc ProcSpec OutputSpec.

Section Paint.
Context {F : Num} (env : Env F).

(** Something drawn: the background and border of a box or cell, a text, an image. *)
Inductive drawing :=
| DFrame (sty : Styles F)
| DText (sty : Styles F) (iss : list (instr F))
| DImage (source : bytes).

(** The boxes and images of a cell. *)
Inductive draws_children : list (instr F) -> list drawing -> Prop :=
| H_nil : draws_children [] []
| H_box : forall st biss iss l sty, ambient_style sty -> draws_children iss l ->
    draws_children (IBox st biss :: iss) (DFrame (e_mut env st sty) :: DText (e_mut env st sty) biss :: l)
| H_image : forall st source iss l, draws_children iss l -> draws_children (IImage st source :: iss) (DImage source :: l)
| H_other : forall i iss l, (forall st biss, i <> IBox st biss) -> (forall st source, i <> IImage st source) ->
    draws_children iss l -> draws_children (i :: iss) l.
(** Cell [k] of a row with [n] cells and style [row]: its frame, its text, then its boxes and
    images. *)
Definition draws_cell (row : Styles F) (n k : nat) (c : xcell F) (l : list drawing) : Prop :=
  match c with XCell st _ _ iss =>
    let sty := if Nat.eqb k 0 then e_mut_sel env ($"first-cell") st row
               else if Nat.eqb k (n - 1) then e_mut_sel env ($"last-cell") st row else e_mut env st row in
    exists l', l = DFrame sty :: DText sty iss :: l' /\ draws_children iss l'
  end.
(** Rows and tables as in OutputSpec.v. *)
Definition draws_row (tab : Styles F) (n i : nat) (r : xrow F) (l : list drawing) : Prop :=
  match r with XRow st cells =>
    let sty := if Nat.eqb i 0 then e_mut_sel env ($"first-row") st tab
               else if Nat.eqb i (n - 1) then e_mut_sel env ($"last-row") st tab else e_mut env st tab in
    exists ls, l = List.concat ls /\ List.length ls = List.length cells /\
      forall k c lk, nth_error cells k = Some c -> nth_error ls k = Some lk -> draws_cell sty (List.length cells) k c lk
  end.
Definition draws_nth (tab : Styles F) (rows : list (xrow F)) (i : nat) (l : list drawing) : Prop :=
  match nth_error rows i with Some r => draws_row tab (List.length rows) i r l | None => l = [] end.
Definition draws_table (st : Styled F) (repeat : Z) (rows : list (xrow F)) (l : list drawing) : Prop :=
  exists sty blocks, ambient_style sty /\ l = List.concat blocks /\ List.length rows <= List.length blocks /\
  forall i b, nth_error blocks i = Some b -> exists hs r,
    b = List.concat hs ++ r /\ draws_nth (e_mut env st sty) rows i r /\
    (hs = [] \/ 0 < i /\ List.length hs = Nat.min (Z.to_nat repeat) (List.length blocks) /\
      forall k h, nth_error hs k = Some h -> draws_nth (e_mut env st sty) rows k h).
(** An instruction outside of texts and tables. *)
Definition draws (i : instr F) (l : list drawing) : Prop :=
  match i with
  | IText st iss => exists sty, ambient_style sty /\ l = [DText (e_mut env st sty) iss]
  | IBox st iss => exists sty, ambient_style sty /\ l = [DFrame (e_mut env st sty); DText (e_mut env st sty) iss]
  | IImage st source => l = [DImage source]
  | ITable (XTable st repeat rows) => draws_table st repeat rows l
  | _ => l = []
  end.

(** ** What is seen *)
(** The pen after an engine call (LayoutSpec.v says what it paints): the calls the engine makes
    back while executing it move the pen, too; only AddPage, WriteText and WritePDF call back. *)
Definition pen_cmd (p : pen (F:=F)) (c : scmd F) : pen (F:=F) :=
  match c with
  | SetLineWidth w => mkPen w (p_draw p) (p_fill p) (p_at p) (p_segs p)
  | SetDrawColor r g b => mkPen (p_lw p) (mkRGB r g b) (p_fill p) (p_at p) (p_segs p)
  | SetFillColor r g b => mkPen (p_lw p) (p_draw p) (mkRGB r g b) (p_at p) (p_segs p)
  | MoveTo x y => mkPen (p_lw p) (p_draw p) (p_fill p) (x, y) (p_segs p)
  | LineTo x y => mkPen (p_lw p) (p_draw p) (p_fill p) (x, y) (p_segs p ++ [(p_at p, (x, y))])
  | DrawPath => mkPen (p_lw p) (p_draw p) (p_fill p) (p_at p) []
  | _ => p
  end.
Fixpoint pen_event (p : pen (F:=F)) (e : event F) : pen (F:=F) :=
  match e with
  | Ev (Simple c) _ => pen_cmd p c
  | Ev _ calls =>
    (fix go (p : pen (F:=F)) (calls : list (cb * list (event F))) : pen (F:=F) :=
       match calls with
       | [] => p
       | (_, sub) :: calls' =>
           go ((fix all (p : pen (F:=F)) (evs : list (event F)) : pen (F:=F) := match evs with [] => p | e' :: evs' => all (pen_event p e') evs' end) p sub) calls'
       end) p calls
  end.
Definition pen_events (p : pen (F:=F)) (evs : list (event F)) : pen (F:=F) := fold_left pen_event evs p.
(** What the engine calls leave on the page, those made inside callbacks not counted: painted
    shapes and images, and written texts. *)
Inductive mark := Shape (p : painted F) | Written (t : bytes).
Definition mark_cmd (p : pen (F:=F)) (c : cmd F) : list mark :=
  match c with WriteText t => [Written t] | _ => map Shape (paint p [c]) end.
Fixpoint seen (p : pen (F:=F)) (evs : list (event F)) : list mark :=
  match evs with [] => [] | e :: evs' => mark_cmd p (ev_cmd e) ++ seen (pen_event p e) evs' end.
(** The callbacks, each with the pen it begins with. *)
Inductive call_with : pen (F:=F) -> list (event F) -> cb -> pen (F:=F) -> list (event F) -> Prop :=
| W_later : forall p e evs c q sub, call_with (pen_event p e) evs c q sub -> call_with p (e :: evs) c q sub
| W_now : forall p cmd calls evs c q sub, called_with p calls c q sub -> call_with p (Ev cmd calls :: evs) c q sub
with called_with : pen (F:=F) -> list (cb * list (event F)) -> cb -> pen (F:=F) -> list (event F) -> Prop :=
| W_this : forall p calls c sub, called_with p ((c, sub) :: calls) c p sub
| W_deep : forall p calls c sub c' q sub', call_with p sub c' q sub' -> called_with p ((c, sub) :: calls) c' q sub'
| W_next : forall p calls c sub c' q sub', called_with (pen_events p sub) calls c' q sub' -> called_with p ((c, sub) :: calls) c' q sub'.

(** How a drawing looks: a frame is a filled rectangle and the enabled sides of its border; a
    text is its words; an image is placed once if its file can be read. *)
Definition looks (d : drawing) (o : list mark) : Prop :=
  match d with
  | DFrame sty => exists x0 y0 x1 y1, o = map Shape (box_picture x0 y0 x1 y1 sty)
  | DText sty iss => exists ts, o = map Written ts /\ text_out env sty iss ts
  | DImage source =>
      match e_image env (e_resolve env source) with
      | Some _ => exists x y w h, o = [Shape (Placed (e_resolve env source) x y w h)]
      | None => o = []
      end
  end.
(** All drawings of the instructions, in order, each once. *)
Definition draws_all (iss : list (instr F)) (o : list mark) : Prop :=
  exists ls outs, Forall2 draws iss ls /\ Forall2 looks (List.concat ls) outs /\ o = List.concat outs.
End Paint.
