(** Specification of headers and footers that are the same on every page (C109). *)
From Verif Require Import GoStr Num Style Class Instr Engine Lines LinesSpec LinesView Proc OutputSpec StyledSpec InsideSpec.

Section Header.
Context {F : Num} (env : Env F).
(** The words printed, blanks aside, each with its font and colour; [p] are the font and colour
    before. *)
Definition printed_words (p : pen F) (evs : list (event F)) : list (pen F * bytes) :=
  map (fun q => (fst q, unspaced (snd q))) (prints p evs).
(** Two callbacks, on whatever pages, print the same words in the same fonts and colours. *)
Definition same_print (sub1 sub2 : list (event F)) : Prop := forall p1 p2, printed_words p1 sub1 = printed_words p2 sub2.
(** No page number in the section, whose words would differ. *)
Definition unnumbered (i : instr F) : Prop :=
  match i with IText _ iss | IBox _ iss => forall j, In j iss -> cp_free j | ITable _ => False | _ => True end.
(** A text or box whose style fixes the font, whatever font was used before it; not justified. *)
Definition settled (i : instr F) : Prop :=
  match i with
  | IText st _ | IBox st _ =>
      (forall a b, ambient_style a -> ambient_style b -> e_mut env st a = e_mut env st b) /\
      forall a, ambient_style a -> HAlign (SAlign (e_mut env st a)) <> $"block"
  | _ => True
  end.
End Header.
