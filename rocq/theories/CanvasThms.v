(** Proofs about what the PDF engine paints (C94). *)
From Coq Require Import QArith Permutation.
From Verif Require Import GoStr Num Style Instr Engine Layout Lines Proc EngineFacts LayoutFacts ImageFacts LayoutSpec Font FontSpec FontThms Fpdf CanvasSpec.

Section Canvas.
Context {F : Num} (pdf : Pdf F) (cv : pst F pdf -> canvas F).
Hypothesis K : paints pdf cv.
Lemma paints_all : forall cmds (e : est (FPDF F pdf)),
  cv_marks (cv (fold_left (fun e c => simple c e) cmds e)) = cv_marks (cv e) ++ paint (cv_pen (cv e)) (map Simple cmds).
Proof.
  induction cmds as [|c l IH]; intro e; [symmetry; apply app_nil_r|]. cbn [fold_left map]. rewrite IH. clear IH.
  destruct c; cbn [simple FPDF fpdf_simple paint].
  - rewrite (K_alias _ _ K). reflexivity.
  - rewrite (K_header _ _ K). reflexivity.
  - rewrite (K_footer _ _ K). reflexivity.
  - rewrite (K_x _ _ K). reflexivity.
  - rewrite (K_xy _ _ K). reflexivity.
  - destruct (getFontSize F pdf e). rewrite (K_ln _ _ K). reflexivity.
  - rewrite (K_font _ _ K). reflexivity.
  - rewrite (K_image _ _ K). unfold with_mark. cbn [cv_marks cv_pen]. rewrite <- app_assoc. reflexivity.
  - rewrite (K_text _ _ K). reflexivity.
  - rewrite (K_width _ _ K). reflexivity.
  - rewrite (K_draw _ _ K). reflexivity.
  - rewrite (K_fill _ _ K). reflexivity.
  - rewrite (K_rect _ _ K). unfold with_mark. cbn [cv_marks cv_pen]. rewrite <- app_assoc. reflexivity.
  - rewrite (K_move _ _ K). reflexivity.
  - rewrite (K_line _ _ K). reflexivity.
  - rewrite (K_path _ _ K). unfold with_mark, with_pen. cbn [cv_marks cv_pen]. rewrite <- app_assoc. reflexivity.
Qed.
Lemma emits_fold : forall cmds (s : PS F (FPDF F pdf)), ps_eng (emits cmds s) = fold_left (fun e c => simple c e) cmds (ps_eng s).
Proof. induction cmds as [|c l IH]; intro s; [reflexivity|]. rewrite emits_cons, IH. reflexivity. Qed.
Lemma box_painted : forall x0 y0 x1 y1 sty (s : PS F (FPDF F pdf)), p_segs (cv_pen (cv (ps_eng s))) = [] ->
  cv_marks (cv (ps_eng (snd (drawBox x0 y0 x1 y1 sty s)))) = cv_marks (cv (ps_eng s)) ++ box_painting x0 y0 x1 y1 sty.
Proof. intros x0 y0 x1 y1 sty s H. rewrite drawBox_run. cbn [snd]. rewrite emits_fold, paints_all, box_paint; [reflexivity|exact H]. Qed.
Lemma font_chosen : forall f st (e : est (FPDF F pdf)), asks (FStyle f) (Weight f) st ->
  exists letters, cv_font (cv (simple (ChangeFont f) e)) = (Family f, letters, PointSize f) /\
    Permutation letters (letters_of st ++ if beqb (Decoration f) ($"underline") then $"U" else $"").
Proof. intros f st e H. eexists. split; [cbn; rewrite (K_font _ _ K); reflexivity|]. exact (asked _ _ (Decoration f) _ H). Qed.
Lemma text_color : forall r g b (e : est (FPDF F pdf)), cv_text (cv (simple (SetTextColor r g b) e)) = mkRGB r g b.
Proof. intros. cbn. rewrite (K_text _ _ K). reflexivity. Qed.
End Canvas.
Lemma image_placed : forall (pdf : Pdf NumQ) (cv : pst NumQ pdf -> canvas NumQ), paints pdf cv ->
  forall (env : Env NumQ) st source (pa : PrintableArea NumQ) (s : PS NumQ (FPDF NumQ pdf)) wpx hpx,
  e_image env (e_resolve env source) = Some (wpx, hpx) -> (0 < wpx)%Z -> (0 < hpx)%Z ->
  let d := SDim (e_mut env st (ps_sty s)) in
  (0 < (pa_width pa - OffsetX d : Q) -> 0 < (pa_height pa - OffsetY d : Q) ->
  exists x y w h wr hr,
    cv_marks (cv (ps_eng (snd (renderImage env st source pa s)))) = cv_marks (cv (ps_eng s)) ++ [Placed (e_resolve env source) x y w h] /\
    x == fst (getXY (ps_eng s)) + OffsetX d /\ y == snd (getXY (ps_eng s)) + OffsetY d /\
    requested_size wpx hpx (Width d) (Height d) wr hr /\
    fitted wr hr (pa_width pa - OffsetX d) (pa_height pa - OffsetY d) w h)%Q.
Proof.
  intros pdf cv K env st source pa s wpx hpx Hi Hw Hh d Hpw Hph.
  destruct (renderImage_fits env (FPDF NumQ pdf) st source pa s wpx hpx Hi Hw Hh Hpw Hph) as (x & y & w & h & wr & hr & Ht & H).
  exists x, y, w, h, wr, hr. split; [|exact H]. clear H. revert Ht. rewrite renderImage_run, Hi. cbv zeta. destruct (image_size _ _ _ _) as [w' h'] eqn:E.
  cbn [snd]. rewrite emitted_trace. intro Ht. apply app_inv_head in Ht. rewrite emitted_eng.
  match goal with |- cv_marks (cv (simple ?c _)) = _ => match type of Ht with [Ev (Simple c) []] = _ => assert (Hc : c = PutImage (e_resolve env source) x y w h) by congruence end end.
  rewrite Hc. cbn [simple FPDF fpdf_simple]. rewrite (K_image _ _ K). reflexivity.
Qed.
