(** Specification of what is drawn in a table cell (C85). *)
From Coq Require Import QArith.
From Verif Require Import GoStr Num Style Class Instr Engine Layout LayoutSpec Lines LinesSpec WriteSpec Proc DrawSpec ProcSpec.
Local Open Scope num_scope.

Section Cell.
Context {F : Num} (env : Env F) {eng : Engine F} (callback : cb -> M eng unit).
Local Notation PS := (PS F eng).

(** Nothing but changes of the font. *)
Definition only_fonts (cmds : list (cmd F)) : Prop := Forall (fun c => exists f, c = Simple (ChangeFont f)) cmds.
(** The upper edge of something moved down by half of [d], by [d], or not at all. *)
Definition dropped (vAlign : bytes) (y d : F) : F :=
  if beqb vAlign ($"middle") then y + d / of_Z 2 else if beqb vAlign ($"bottom") then y + d else y.
(** The cursor is put to [x], [y] after measuring. *)
Definition put (x y : F) (s s' : PS) : Prop :=
  (from_edge x -> fst (getXY (ps_eng s')) = x) /\ (from_edge y -> snd (getXY (ps_eng s')) = y) /\ wrote s s' [Simple (SetY y); Simple (SetX x)].

(** The text of a cell: [ax], [ay], [bx] and [by] are the edges of the inner area. *)
Definition cell_text (sty : Styles F) (iss : list (instr F)) (width ax ay bx by_ : F) (s s' : PS) : Prop :=
  exists th measuring s1 s2 text,
    textHeight (e_mut env) iss (bx - ax) sty s = (th, s1) /\ wrote s s1 measuring /\ only_fonts measuring /\
    put ax (dropped (VAlign (SAlign sty)) ay (by_ - ay - th)) s1 s2 /\
    wrote s2 s' text /\ text_written env sty iss width (fst (getXY (ps_eng s2))) s2 text.

(** The boxes and images of a cell. *)
Inductive children (vAlign : bytes) (pa : PrintableArea F) : list (instr F) -> PS -> PS -> Prop :=
| C_nil : forall s, children vAlign pa [] s s
| C_box : forall st biss iss s h s1 measuring s2 s3 s',
    let sty := e_mut env st (ps_sty s) in
    let pad := Padding (SBox sty) in
    box_height env sty biss (effective_width pa (Width (SDim sty)) - QLeft pad - QRight pad) s h s1 ->
    wrote s s1 measuring -> only_fonts measuring ->
    wrote s1 s2 (reset_cmds s2 ++ [Simple (SetY (dropped vAlign (pa_y0 pa) h))]) ->
    (from_edge (fst (getXY (ps_eng s))) -> fst (getXY (ps_eng s2)) = fst (getXY (ps_eng s))) ->
    (from_edge (dropped vAlign (pa_y0 pa) h) -> snd (getXY (ps_eng s2)) = dropped vAlign (pa_y0 pa) h) ->
    renderTextBox env callback st biss pa s2 = Ok tt s3 ->
    children vAlign pa iss s3 s' -> children vAlign pa (IBox st biss :: iss) s s'
| C_image : forall st source iss s drawn s1 s2 s',
    let sty := e_mut env st (ps_sty s) in
    wrote s s1 [Simple (SetY (pa_y0 pa))] ->
    (from_edge (fst (getXY (ps_eng s))) -> fst (getXY (ps_eng s1)) = fst (getXY (ps_eng s))) ->
    (from_edge (pa_y0 pa) -> snd (getXY (ps_eng s1)) = pa_y0 pa) ->
    drawn = match e_image env (e_resolve env source) with
            | None => []
            | Some (wpx, hpx) =>
                [Simple (PutImage (e_resolve env source) (fst (getXY (ps_eng s1)) + OffsetX (SDim sty)) (snd (getXY (ps_eng s1)) + OffsetY (SDim sty))
                           (fst (image_size pa sty wpx hpx)) (snd (image_size pa sty wpx hpx)))]
            end ->
    wrote s1 s2 drawn ->
    children vAlign pa iss s2 s' -> children vAlign pa (IImage st source :: iss) s s'
| C_other : forall i iss s s', (forall st biss, i <> IBox st biss) -> (forall st source, i <> IImage st source) ->
    children vAlign pa iss s s' -> children vAlign pa (i :: iss) s s'.

(** A cell with the outer edges [x0], [y0], [x1] and [y1]: the frame, then the text, then the
    boxes and images, all inside the padding. *)
Definition cell_drawn (sty : Styles F) (iss : list (instr F)) (x0 y0 x1 y1 : F) (s s' : PS) : Prop :=
  let pad := Padding (SBox sty) in
  let ax := x0 + QLeft pad in let ay := y0 + QTop pad in
  let bx := x1 - QRight pad in let by_ := y1 - QBottom pad in
  exists frame s1 s2 s3,
    wrote s s1 frame /\ draws_box x0 y0 x1 y1 sty frame /\
    match iss with
    | [] => s2 = s1
    | _ => cell_text sty iss (x1 - x0 - QLeft pad - QRight pad) ax ay bx by_ s1 s2
    end /\
    wrote s2 s3 [Simple (SetX ax)] /\ (from_edge ax -> fst (getXY (ps_eng s3)) = ax) /\
    children (VAlign (SAlign sty)) (mkPA ax ay bx by_) iss s3 s'.
End Cell.

(** No command sets the height of the cursor. *)
Definition no_sety (cmds : list (cmd NumQ)) : Prop := forall y, ~ In (Simple (SetY (F:=NumQ) y)) cmds.
(** Neither a box nor an image. *)
Definition text_only {F : Num} (i : instr F) : bool := match i with IBox _ _ | IImage _ _ => false | _ => true end.
(** The height of the cursor set last before the first text [t] is written. *)
Fixpoint y_of_text (t : bytes) (now : option Q) (l : list (cmd NumQ)) : option Q :=
  match l with
  | [] => None
  | Simple (SetY y) :: l' => y_of_text t (Some y) l'
  | WriteText t' :: l' => if beqb t t' then now else y_of_text t now l'
  | _ :: l' => y_of_text t now l'
  end.
