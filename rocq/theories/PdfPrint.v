(** The PDF engine prints from left to right (C98). *)
From Coq Require Import QArith Lia.
From Verif Require Import GoStr Num Style Engine Font Fpdf FpdfSpec FpdfWit FpdfThms ProcSpec PlaceSpec PlaceWit PdfPrintSpec Hyph HyphPattern HyphProofs.
Local Open Scope Q_scope.

Lemma pdf_printer : forall pdf tw right, gofpdf_laws pdf -> gofpdf_prints pdf tw right -> printer (FPDF NumQ pdf) (pdf_width tw) right.
Proof.
  intros pdf tw right L G. constructor.
  - intros f e s. exact (G_width _ _ _ G _ _ _ _ _).
  - intros f e. destruct (G_font _ L (Family f) (fpdf_font_style (FStyle f) (Weight f) (Decoration f)) (PointSize f) e) as (A & _ & B). split; [exact A|exact B].
  - intros r g b e. exact (proj1 (G_color _ L r g b e)).
  - intros x e H. apply (G_x _ L). apply Qle_bool_iff. exact H.
  - intros t e e' Ho Hr He. exact (G_write _ _ _ G _ _ _ _ Ho Hr He).
Qed.
Lemma ref_prints : forall right, gofpdf_prints RefPdf (fun _ _ _ t => inject_Z (Z.of_nat (List.length t))) right.
Proof.
  intros right. constructor; [reflexivity|]. intros h t e e' _ _ H. inversion H; subst. apply Qeq_refl.
Qed.
Lemma ref_pdf_regular : forall f, regular (pdf_width (fun _ _ _ t => inject_Z (Z.of_nat (List.length t)))) f.
Proof. intros f. destruct (chars_regular f) as [A B C]. constructor; [exact A|exact B|exact C]. Qed.

Lemma removelast_in : forall (s : bytes) c, In c (removelast s) -> In c s.
Proof. induction s as [|x [|y s] IH]; intros c H; [destruct H|destruct H|]. destruct H as [<-|H]; [left; reflexivity|right; exact (IH c H)]. Qed.
Lemma parts_one_line : forall ed el data pl w parts, load ed data = HyphPattern.Ok pl -> hyphenate el pl w = Some parts -> one_line w -> Forall one_line parts.
Proof.
  intros ed el data pl w parts H Hp Ho. apply Forall_forall. intros p Hin K.
  assert (C : In lf (List.concat parts)) by (apply in_concat; exists p; split; assumption).
  apply Ho. destruct (loses_at_most_last ed el data pl w parts H Hp) as [E|E]; rewrite E in C; [exact C|exact (removelast_in _ _ C)].
Qed.
