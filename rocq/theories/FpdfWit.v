(** A small library that obeys the laws of gofpdf: pages of 210 x 297 with margins of 10. Negative
    coordinates are counted from the right and from below; SetXY goes through SetY, which goes to
    the left margin. *)
From Coq Require Import QArith.
From Verif Require Import GoStr Num Style Engine Font Fpdf FpdfSpec ProcSpec.
Local Open Scope Q_scope.
Record PdfState := mkPS0 { p_page : Z; p_x : Q; p_y : Q; p_size : Q; p_last : Q }.
Definition edge (len v : Q) : Q := if Qle_bool 0 v then v else len + v.
Definition p_move (x y : Q) (e : PdfState) : PdfState := mkPS0 (p_page e) x y (p_size e) (p_last e).
Definition p_setX (x : Q) (e : PdfState) : PdfState := p_move (edge 210 x) (p_y e) e.
Definition p_setY (y : Q) (e : PdfState) : PdfState := p_move 10 (edge 297 y) e.
Definition p_ln (h : Q) (e : PdfState) : PdfState := p_move 10 (if Qle_bool 0 h then p_y e + h else p_y e + p_last e) e.
Definition p_write (h : Q) (s : bytes) (e : PdfState) : PdfState :=
  mkPS0 (p_page e) (p_x e + inject_Z (Z.of_nat (List.length s))) (p_y e) (p_size e) h.
Definition RefPdf : Pdf NumQ := mkPdf NumQ PdfState p_x p_y p_page (fun _ => (10, 10, 10, 10)) (fun _ => (210, 297))
  (fun e => (p_size e, p_size e * (127 # 360))) (fun _ s => inject_Z (Z.of_nat (List.length s))) (fun _ => None)
  (fun _ e => e) (fun e => e) (fun e => e)
  p_setX (fun x y e => p_setX x (p_setY y e)) p_ln (fun _ _ size e => mkPS0 (p_page e) (p_x e) (p_y e) size (p_last e))
  (fun _ _ _ _ _ e => e) (fun _ _ _ e => e) (fun _ e => e) (fun _ _ _ e => e) (fun _ _ _ e => e) (fun _ _ _ _ _ e => e)
  (fun x y e => p_move x y e) (fun x y e => p_move x y e) (fun _ e => e)
  (fun e => ECall Header (mkPS0 (p_page e + 1) 10 10 (p_size e) (p_last e)) EDone) (fun h s e => EDone (p_write h s e)) (fun e => ECall Footer e EDone) (fun _ => None).
Lemma edge_pos : forall len v, Qle_bool 0 v = true -> edge len v = v.
Proof. intros len v H. unfold edge. rewrite H. reflexivity. Qed.
Lemma ref_pdf_laws : gofpdf_laws RefPdf.
Proof.
  constructor; try (cbn; intros; repeat split; reflexivity).
  - intros x e H. exact (edge_pos 210 x H).
  - intros x y e H. exact (edge_pos 210 x H).
  - intros x y e H. exact (edge_pos 297 y H).
  - intros h e H. change ((if Qle_bool 0 h then p_y e + h else p_y e + p_last e) = p_y e + h). change (Qle_bool 0 h = true) in H. rewrite H. reflexivity.
Qed.
