(** Independent specifications for C26-C31. *)
From Coq Require Import QArith.
From Verif Require Import GoStr Num Style Engine.

(** A drawing machine: what a sequence of engine commands paints. *)
Section Paint.
Context {F : Num}.
Inductive painted :=
| Filled (color : RGB) (x y width height : F)
| Stroked (lineWidth : F) (color : RGB) (segments : list ((F * F) * (F * F)))
| Placed (src : bytes) (x y width height : F).
Record pen := mkPen { p_lw : F; p_draw : RGB; p_fill : RGB; p_at : F * F; p_segs : list ((F * F) * (F * F)) }.
Fixpoint paint (p : pen) (l : list (cmd F)) : list painted :=
  match l with
  | [] => []
  | Simple (SetLineWidth w) :: l' => paint (mkPen w (p_draw p) (p_fill p) (p_at p) (p_segs p)) l'
  | Simple (SetDrawColor r g b) :: l' => paint (mkPen (p_lw p) (mkRGB r g b) (p_fill p) (p_at p) (p_segs p)) l'
  | Simple (SetFillColor r g b) :: l' => paint (mkPen (p_lw p) (p_draw p) (mkRGB r g b) (p_at p) (p_segs p)) l'
  | Simple (FillRect x y w h) :: l' => Filled (p_fill p) x y w h :: paint p l'
  | Simple (MoveTo x y) :: l' => paint (mkPen (p_lw p) (p_draw p) (p_fill p) (x, y) (p_segs p)) l'
  | Simple (LineTo x y) :: l' => paint (mkPen (p_lw p) (p_draw p) (p_fill p) (x, y) (p_segs p ++ [(p_at p, (x, y))])) l'
  | Simple DrawPath :: l' => Stroked (p_lw p) (p_draw p) (p_segs p) :: paint (mkPen (p_lw p) (p_draw p) (p_fill p) (p_at p) []) l'
  | Simple (PutImage src x y w h) :: l' => Placed src x y w h :: paint p l'
  | _ :: l' => paint p l'
  end.
Definition new_pen (p : pen) : Prop := p_segs p = [].
End Paint.
Arguments painted : clear implicits.

(** An image of [wr] x [hr] in a space of [pw] x [ph]: it keeps its proportions, is not
    enlarged, fits, and is reduced only as far as needed. *)
Definition fitted (wr hr pw ph w h : Q) : Prop :=
  exists k, (0 < k <= 1)%Q /\ (w == k * wr /\ h == k * hr)%Q /\ (w <= pw /\ h <= ph)%Q /\
    (k == 1 \/ w == pw \/ h == ph)%Q.
(** The size asked for: both dimensions, or one with the proportions of the file, or the
    file's size at 96 pixels per inch of 25.4 mm. *)
Definition requested_size (wpx hpx : Z) (width height wr hr : Q) : Prop :=
  ((0 < width -> 0 < height -> wr == width /\ hr == height) /\
   (width <= 0 -> 0 < height -> hr == height /\ wr * inject_Z hpx == height * inject_Z wpx) /\
   (0 < width -> height <= 0 -> wr == width /\ hr * inject_Z wpx == width * inject_Z hpx) /\
   (width <= 0 -> height <= 0 -> wr == inject_Z wpx * (254 # 960) /\ hr == inject_Z hpx * (254 # 960)))%Q.

(** The cell of a grid in row [i], column [j]. *)
Definition grid_at (rows : list (list bytes)) (i j : nat) : option bytes :=
  match nth_error rows i with Some r => nth_error r j | None => None end.
(** The cells named [a] are those of the rectangle of rows [top]..[bottom] and columns
    [left]..[right]. *)
Definition is_rectangle (rows : list (list bytes)) (a : bytes) (left top right bottom : nat) : Prop :=
  (left <= right /\ top <= bottom /\
   forall i j, grid_at rows i j = Some a <-> (top <= i <= bottom /\ left <= j <= right))%nat.
Definition rectangular (rows : list (list bytes)) : Prop :=
  forall i j a, grid_at rows i j = Some a -> exists left top right bottom, is_rectangle rows a left top right bottom.
