(** Model of dim.go, draw.go and the size computation of image.go. *)
From Verif Require Import GoStr Num Style Instr Engine.
Local Open Scope num_scope.

Section Layout.
Context {F : Num}.

(** dim.go:9-11 *)
Record PrintableArea := mkPA { pa_x0 : F; pa_y0 : F; pa_x1 : F; pa_y1 : F }.
(** dim.go:17-19 *)
Definition pa_width (pa : PrintableArea) : F := pa_x1 pa - pa_x0 pa.
(** dim.go:21-23 *)
Definition pa_height (pa : PrintableArea) : F := pa_y1 pa - pa_y0 pa.
(** dim.go:25-32 *)
Definition with_padding (pd : Quad F) (pa : PrintableArea) : PrintableArea :=
  mkPA (pa_x0 pa + QLeft pd) (pa_y0 pa + QTop pd) (pa_x1 pa - QRight pd) (pa_y1 pa - QBottom pd).
(** dim.go:34-40 *)
Definition effective_width (pa : PrintableArea) (width : F) : F :=
  let ew := pa_width pa in
  if (width <? zero) || (ew <? width) then ew else width.
(** dim.go:42-46 *)
Record Page := mkPage { pg_width : F; pg_height : F; pg_area : PrintableArea }.
(** dim.go:48-54 *)
Definition page_effective_width (p : Page) (width : F) : F :=
  let ew := pa_x1 (pg_area p) - pa_x0 (pg_area p) in
  if (width <? zero) || (ew <? width) then ew else width.

(** image.go:23-31: pixels at 96 dpi to millimetres *)
Definition px_mm (px : Z) : F := of_Z px / (of_Z 96 / (of_Z 254 / of_Z 10)).

(** image.go:62-91: the size an image of [wpx] x [hpx] pixels is drawn with in the area *)
Definition image_size (pa : PrintableArea) (sty : Styles F) (wpx hpx : Z) : F * F :=
  let d := SDim sty in
  let paWidth := pa_width pa - OffsetX d in                              (* :62 *)
  let paHeight := pa_height pa - OffsetY d in                            (* :63 *)
  let idWidth := px_mm wpx in
  let idHeight := px_mm hpx in
  let '(width, height) :=
    if (zero <? Width d) && (zero <? Height d) then (Width d, Height d)  (* :70-71 *)
    else if (Width d <=? zero) && (zero <? Height d) then
      (idWidth / idHeight * Height d, Height d)                          (* :72-74 *)
    else if (zero <? Width d) && (Height d <=? zero) then
      (Width d, idHeight / idWidth * Width d)                            (* :75-77 *)
    else (idWidth, idHeight) in                                          (* :78-79 *)
  let '(width, height) :=
    if paWidth <? width then (paWidth, height * paWidth / width) else (width, height) in   (* :84-87 *)
  if paHeight <? height then (width * paHeight / height, paHeight) else (width, height).   (* :88-91 *)

Section Box.
Context {eng : Engine F}.
Local Notation St := (St eng).

Definition set_draw_color (c : RGB) : St unit := emit (SetDrawColor (R c) (G c) (B c)).
Definition set_fill_color (c : RGB) : St unit := emit (SetFillColor (R c) (G c) (B c)).
Definition set_text_color (c : RGB) : St unit := emit (SetTextColor (R c) (G c) (B c)).

(** draw.go:5-39 *)
Definition drawBox (x0 y0 x1 y1 : F) (sty : Styles F) : St unit :=
  emit (SetLineWidth (LineWidth sty)) ;!
  set_draw_color (Foreground (SColor sty)) ;!
  set_fill_color (Background (SColor sty)) ;!
  let halfLine := LineWidth sty / of_Z 2 in
  let width := x1 - x0 in
  let height := y1 - y0 in
  emit (FillRect (x0 + halfLine) (y0 + halfLine) (width - of_Z 2 * halfLine) (height - of_Z 2 * halfLine)) ;!
  emit (MoveTo (x0 - halfLine) y0) ;!
  (if (0 <? QTop (Border (SBox sty)))%Z then emit (LineTo (x0 + width) y0) else emit (MoveTo (x0 + width) y0)) ;!
  (if (0 <? QRight (Border (SBox sty)))%Z then emit (LineTo (x0 + width) y1) else emit (MoveTo (x0 + width) y1)) ;!
  (if (0 <? QBottom (Border (SBox sty)))%Z then emit (LineTo x0 y1) else emit (MoveTo x0 y1)) ;!
  (if (0 <? QLeft (Border (SBox sty)))%Z then emit (LineTo x0 y0) else emit (MoveTo x0 y0)) ;!
  emit DrawPath.
End Box.
End Layout.
Arguments PrintableArea : clear implicits.
Arguments Page : clear implicits.
