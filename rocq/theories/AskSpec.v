(** Specification of the fonts a document may ask for (C111). *)
From Verif Require Import GoStr Num Style Class Instr Engine Proc LoadSpec LoadStyleSpec OutputSpec.

Section Ask.
Context {F : Num}.
(** The font [f] is asked for somewhere under the events [evs], callbacks included. *)
Definition asked (evs : list (event F)) (f : Font F) : Prop :=
  In (Simple (ChangeFont f)) (map ev_cmd evs) \/ exists c sub, call_in evs c sub /\ In (Simple (ChangeFont f)) (map ev_cmd sub).

Variable env : Env F.
(** The instructions of the document, at any depth. *)
Definition in_document (j : instr F) : Prop := exists i, In i (e_header env ++ e_footer env ++ e_body env) /\ part_of i j.
(** The styles of an element, applied to a style with a font in [P], give a font in [P]. *)
Definition fonts_within (P : Font F -> Prop) (st : Styled F) : Prop :=
  forall y, P (SFont y) -> P (SFont (e_mut env st y)) /\ forall sel, P (SFont (e_mut_sel env sel st y)).
(** All styles of the document do. *)
Definition document_within (P : Font F -> Prop) : Prop :=
  forall j st, in_document j -> styles_of j = Some st -> fonts_within P st.

(** Styles are applied as MutatedStyles and MutatedStylesWithSelector do, with the classes [cs] of
    the document. *)
Definition styled_by (cs : Classes F) : Prop :=
  (forall st y, e_mut env st y = match mutated_styles cs st y with Some y' => y' | None => y end) /\
  (forall sel st y, e_mut_sel env sel st y = match mutated_styles_sel sel cs st y with Some y' => y' | None => y end).
(** A style text sets the family: the first field of the first field of the styles. *)
Definition sets_family (m : mutator F) (f : bytes) : Prop :=
  exists p x, In (p, x) m /\
    ((p = [0; 0] /\ x = VStr f) \/ (p = [0] /\ exists r, x = VStruct (VStr f :: r)) \/ (p = [] /\ exists r r', x = VStruct (VStruct (VStr f :: r) :: r'))).
(** A class of the document, or the style of an element, does. *)
Definition named (cs : Classes F) (f : bytes) : Prop :=
  (exists n c m, In (n, c) cs /\ (m = cl_mutator c \/ exists sel, In (sel, m) (cl_selectors c)) /\ sets_family m f) \/
  (exists j st m, in_document j /\ styles_of j = Some st /\ In m (st_mutators st) /\ sets_family m f).
End Ask.
