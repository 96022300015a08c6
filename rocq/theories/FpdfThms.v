(** Proofs about the PDF engine (C91, C92). *)
From Coq Require Import QArith.
From Verif Require Import GoStr Num Style Engine Lines LinesSpec Font Fpdf FpdfSpec ProcSpec.

Section Fpdf.
Context {F : Num} (pdf : Pdf F).
Hypothesis L : gofpdf_laws pdf.
Lemma pdf_places : places (FPDF F pdf).
Proof.
  constructor.
  - intros x e H. exact (G_x _ L x e H).
  - intros x e. exact (G_x_y _ L x e).
  - intros y e H. exact (G_xy_y _ L _ y e H).
  - intros y e H. exact (G_xy_x _ L _ y e H).
  - intros f e. cbn. destruct (G_font _ L (Family f) (fpdf_font_style (FStyle f) (Weight f) (Decoration f)) (PointSize f) e) as (A & B & _). cbn in A, B. rewrite A, B. reflexivity.
  - intros r g b e. cbn. destruct (G_color _ L r g b e) as (A & B). cbn in A, B. rewrite A, B. reflexivity.
Qed.
Lemma pdf_stable : page_stable (eng:=FPDF F pdf).
Proof. intros f e. exact (proj2 (proj2 (G_font _ L (Family f) (fpdf_font_style (FStyle f) (Weight f) (Decoration f)) (PointSize f) e))). Qed.
Lemma pdf_feed : forall n (e : est (FPDF F pdf)), from_edge (mul (fontHeight e) n) ->
  getXY (simple (LineFeed n) e) = ((let '(l, _, _, _) := margins e in l), add (snd (getXY e)) (mul (fontHeight e) n)).
Proof.
  intros n e H. cbn in *. destruct (getFontSize F pdf e) as [p m]. cbn in *. rewrite (G_ln_x _ L), (G_ln_y _ L _ _ H). reflexivity.
Qed.
End Fpdf.
Lemma pdf_moves : forall (F : Num) (pdf : Pdf F), gofpdf_laws pdf -> forall v (e : est (FPDF F pdf)),
  leb zero v = true -> leb zero (fst (getXY e)) = true ->
  getXY (simple (SetX v) e) = (v, snd (getXY e)) /\ getXY (simple (SetY v) e) = (fst (getXY e), v).
Proof.
  intros F pdf L v e Hv Hx. cbn in *. rewrite (G_x _ L _ _ Hv), (G_x_y _ L), (G_xy_x _ L _ _ _ Hx), (G_xy_y _ L _ _ _ Hv). split; reflexivity.
Qed.
Lemma pdf_text : forall (F : Num) (pdf : Pdf F) s (e : est (FPDF F pdf)),
  textWidth e s = getStringWidth F pdf e s /\ Engine.writeText s e = write F pdf (fontHeight e) s e.
Proof. intros F pdf s e. split; reflexivity. Qed.
Lemma pdf_area : forall (pdf : Pdf NumQ) (e : est (FPDF NumQ pdf)),
  let '(l, t, r, b) := margins e in let '(x0, y0, x1, y1) := printableArea e in
  x0 = l /\ y0 = t /\ (x1 + 2 + r == pageWidth e)%Q /\ (y1 + b == pageHeight e)%Q.
Proof.
  intros pdf e. cbn. unfold fpdf_area. destruct (getMargins NumQ pdf e) as [[[l t] r] b]. destruct (getPageSize NumQ pdf e) as [pw ph]. cbn.
  split; [reflexivity|]. split; [reflexivity|]. split; unfold Qminus; ring.
Qed.
