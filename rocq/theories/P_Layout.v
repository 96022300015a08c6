(** Properties of dimensions, boxes, images and grids. *)
From Coq Require Import QArith Permutation.
From Verif Require Import GoStr Num Style Class Instr Engine Layout LayoutSpec LayoutFacts Grid GridFacts Table Lines Proc ProcView RefEngine ImageFacts.

(** C26 *)
Theorem C26_effective_width : forall (pa : PrintableArea NumQ) (w : Q),
  (0 <= w <= pa_x1 pa - pa_x0 pa -> effective_width pa w = w) /\
  (~ 0 <= w <= pa_x1 pa - pa_x0 pa -> effective_width pa w = pa_x1 pa - pa_x0 pa) /\
  (effective_width pa w : Q) <= pa_x1 pa - pa_x0 pa.
Proof. exact effective_width_Q. Qed.
Print Assumptions C26_effective_width.
(** In every arithmetic in which nothing is less than itself, binary64 included. *)
Theorem C26_never_exceeds : forall (F : Num), (forall x : F, ltb x x = false) ->
  forall (pa : PrintableArea F) w, ltb (sub (pa_x1 pa) (pa_x0 pa)) (effective_width pa w) = false.
Proof. exact effective_width_any. Qed.
Print Assumptions C26_never_exceeds.
Theorem C26_page : forall (F : Num) (p : Page F) w, page_effective_width p w = effective_width (pg_area p) w.
Proof. exact page_effective_width_eq. Qed.
Print Assumptions C26_page.
Example C26_example : map (effective_width (mkPA (F:=NumQ) 10 10 90 90)) [-(1); 0; 80; 81] = [80; 0; 80; 80].
Proof. vm_compute. reflexivity. Qed.

(** C27: what drawing a box paints, whatever was drawn before. *)
Theorem C27_box : forall (F : Num) (eng : Engine F) x0 y0 x1 y1 sty (s : PS F eng),
  exists new, ps_trace (snd (drawBox x0 y0 x1 y1 sty s)) = ps_trace s ++ new /\
  forall p, new_pen p -> paint p (map ev_cmd new) =
  (let h := LineWidth sty / of_Z 2 in
   let bd := Border (SBox sty) in
   let right := x0 + (x1 - x0) in
   [Filled (Background (SColor sty)) (x0 + h) (y0 + h) (x1 - x0 - of_Z 2 * h) (y1 - y0 - of_Z 2 * h);
    Stroked (LineWidth sty) (Foreground (SColor sty))
      ((if (0 <? QTop bd)%Z then [((x0 - h, y0), (right, y0))] else []) ++
       (if (0 <? QRight bd)%Z then [((right, y0), (right, y1))] else []) ++
       (if (0 <? QBottom bd)%Z then [((right, y1), (x0, y1))] else []) ++
       (if (0 <? QLeft bd)%Z then [((x0, y1), (x0, y0))] else []))])%num.
Proof. exact @drawBox_paints. Qed.
Print Assumptions C27_box.
(** In exact arithmetic the right edge is at [x1]. *)
Theorem C27_right_edge : forall x0 x1 : Q, x0 + (x1 - x0) == x1.
Proof. exact right_edge. Qed.
Print Assumptions C27_right_edge.
Definition framed (l t r b : Z) : Styles NumQ :=
  mkStyles ref_font (mkBox (mkQuad l t r b) (mkQuad 0 0 0 0) (mkQuad 0 0 0 0)) (mkDim (-(1)) (-(1)) 1 0 0) (-(1))
    (mkAlign [] []) (mkColor (mkRGB 1 2 3) (mkRGB 0 0 0) (mkRGB 4 5 6)) 2.
Example C27_example :
  paint (mkPen (F:=NumQ) 7 (mkRGB 9 9 9) (mkRGB 9 9 9) (0, 0) [])
    (map ev_cmd (ps_trace (snd (drawBox (eng:=RefEngine) 10 20 30 50 (framed 0 1 0 2) (initial ref_start))))) =
  [Filled (F:=NumQ) (mkRGB 4 5 6) (22 # 2) (42 # 2) (36 # 2) (56 # 2); Stroked (F:=NumQ) 2 (mkRGB 1 2 3) [((18 # 2, 20), (30, 20)); ((30, 50), (10, 50))]].
Proof. vm_compute. reflexivity. Qed.

(** C28 *)
Theorem C28_image : forall (env : Env NumQ) (eng : Engine NumQ) st source (pa : PrintableArea NumQ) (s : PS NumQ eng) wpx hpx,
  e_image env (e_resolve env source) = Some (wpx, hpx) -> (0 < wpx)%Z -> (0 < hpx)%Z ->
  let d := SDim (e_mut env st (ps_sty s)) in
  0 < ((pa_x1 pa - pa_x0 pa) - OffsetX d : Q) -> 0 < ((pa_y1 pa - pa_y0 pa) - OffsetY d : Q) ->
  exists x y w h wr hr,
    ps_trace (snd (renderImage env st source pa s)) =
      ps_trace s ++ [Ev (Simple (PutImage (e_resolve env source) x y w h)) []] /\
    x == fst (getXY (ps_eng s)) + OffsetX d /\ y == snd (getXY (ps_eng s)) + OffsetY d /\
    requested_size wpx hpx (Width d) (Height d) wr hr /\
    fitted wr hr ((pa_x1 pa - pa_x0 pa) - OffsetX d) ((pa_y1 pa - pa_y0 pa) - OffsetY d) w h.
Proof. exact renderImage_fits. Qed.
Print Assumptions C28_image.
(** A file that cannot be read draws nothing. *)
Theorem C28_unreadable : forall (F : Num) (env : Env F) (eng : Engine F) st source pa (s : PS F eng),
  e_image env (e_resolve env source) = None -> renderImage env st source pa s = (tt, s).
Proof. exact renderImage_missing. Qed.
Print Assumptions C28_unreadable.
(** The environment of the examples knows one picture of 96 x 192 pixels, 25.4 x 50.8 mm. *)
Definition images (l : list (cmd NumQ)) : list (cmd NumQ) :=
  filter (fun c => match c with Simple (PutImage _ _ _ _ _) => true | _ => false end) l.
Example C28_example :
  images (flat (trace_of (ref_process [] [] [ISetX (20 : NumQ); IImage no_style ($"missing"); IImage no_style ($"a.png")]))) =
  [Simple (PutImage (F:=NumQ) ($"a.png") 20 10 (24384 # 960) (48768 # 960))] /\
  fitted (254 # 10) (508 # 10) 80 80 (24384 # 960) (48768 # 960).
Proof. split; [vm_compute; reflexivity|]. exists 1. repeat split; try (vm_compute; congruence). left; reflexivity. Qed.

(** C29 fails: below the cursor the room is not taken into account, and no page is broken. *)
Theorem C29_refuted : exists body s src x y w h,
  ref_process [] [] body = Ok None s /\ In (Simple (PutImage src x y w h)) (flat (ps_trace s)) /\
  (let '(_, _, _, bottom) := @printableArea NumQ RefEngine (ps_eng s) in bottom < y + h).
Proof. exact image_off_page. Qed.
Print Assumptions C29_refuted.
(** It reaches below the printable area by at most the distance of the cursor from the top. *)
Theorem C29_bound_partial : forall (env : Env NumQ) (eng : Engine NumQ) st source (pa : PrintableArea NumQ) (s : PS NumQ eng) wpx hpx,
  e_image env (e_resolve env source) = Some (wpx, hpx) -> (0 < wpx)%Z -> (0 < hpx)%Z ->
  let d := SDim (e_mut env st (ps_sty s)) in
  0 < ((pa_x1 pa - pa_x0 pa) - OffsetX d : Q) -> 0 < ((pa_y1 pa - pa_y0 pa) - OffsetY d : Q) ->
  exists src x y w h,
    ps_trace (snd (renderImage env st source pa s)) = ps_trace s ++ [Ev (Simple (PutImage src x y w h)) []] /\
    y + h <= pa_y1 pa + (snd (getXY (ps_eng s)) - pa_y0 pa).
Proof. exact renderImage_below. Qed.
Print Assumptions C29_bound_partial.

(** C30 *)
Theorem C30_rectangles : forall shuffle rows, (forall l : boxes, Permutation (shuffle l) l) ->
  match render_grid shuffle rows with
  | GOk bs => rectangular rows /\
      forall a, match map_get a bs with
                | Some b => is_rectangle rows a (gb_left b) (gb_top b) (gb_right b) (gb_bottom b)
                | None => forall i j, grid_at rows i j <> Some a
                end
  | GErr => ~ rectangular rows
  | GPanic => False
  end.
Proof. exact grid_main. Qed.
Print Assumptions C30_rectangles.
Example C30_example :
  match render_grid (fun l => l) [[$"l"; $"a"; $"a"]; [$"l"; $"c"; $"c"]; [$"l"; $"c"; $"c"]],
        render_grid (fun l => l) [[$"l"; $"a"]; [$"l"; $"l"]],
        render_grid (fun l => l) [[$"a"; $"b"; $"a"]] with
  | GOk bs, GErr, GErr => option_map (fun b => (gb_left b, gb_top b, gb_right b, gb_bottom b)) (map_get ($"c") bs) = Some (1, 1, 2, 2)%nat
  | _, _, _ => False
  end.
Proof. vm_compute. reflexivity. Qed.

(** C31 fails: a grid has no effect at all. *)
Theorem C31_refuted : exists st rows parts,
  In (XGridPart no_style ($"a") [IText no_style [ITextBlock ($"hello")]]) parts /\ rectangular (map gr_areas rows) /\
  exists s, ref_process [] [] [IGrid st rows parts] = Ok None s /\ forall t, ~ In (WriteText t) (flat (ps_trace s)).
Proof. exact grid_nothing. Qed.
Print Assumptions C31_refuted.
Theorem C31_no_effect : forall (F : Num) (env : Env F) (eng : Engine F), (forall l, Permutation (e_shuffle env l) l) ->
  forall callback st rows parts (s : PS F eng), processInstruction env callback (IGrid st rows parts) s = Ok tt s.
Proof. exact @grid_noop. Qed.
Print Assumptions C31_no_effect.
