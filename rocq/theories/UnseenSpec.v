(** Specification for C114: elements that leave no trace, and documents without some of them. *)
From Verif Require Import GoStr Num Style Class Instr Engine Proc.

(** Elements of a header, a footer or the body that are not drawn: images that cannot be read, grids,
    texts without content, and elements that belong into a text, a table or a grid. *)
Inductive unseen {F : Num} (env : Env F) : instr F -> Prop :=
| U_image : forall st source, e_image env (e_resolve env source) = None -> unseen env (IImage st source)
| U_grid : forall st rows parts, unseen env (IGrid st rows parts)
| U_text : forall st, unseen env (IText st [])
| U_block : forall t, unseen env (ITextBlock t)
| U_paragraph : forall st t, unseen env (IParagraph st t)
| U_break : unseen env ILineBreak
| U_row : forall r, unseen env (ITableRow r)
| U_cell : forall c, unseen env (ITableCell c)
| U_gridrow : forall r, unseen env (IGridRow r)
| U_gridpart : forall p, unseen env (IGridPart p).

(** [thinned P l l']: [l'] is [l] without some elements that satisfy [P]. *)
Inductive thinned {A} (P : A -> Prop) : list A -> list A -> Prop :=
| T_nil : thinned P [] []
| T_keep : forall a l l', thinned P l l' -> thinned P (a :: l) (a :: l')
| T_drop : forall a l l', P a -> thinned P l l' -> thinned P (a :: l) l'.

(** The same processor, with another header, footer and body. *)
Definition with_parts {F : Num} (header footer body : list (instr F)) (env : Env F) : Env F :=
  mkEnv (e_mut env) (e_mut_sel env) (e_hyph env) (e_resolve env) (e_image env) (e_shuffle env) header footer body.
