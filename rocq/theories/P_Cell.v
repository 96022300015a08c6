(** Properties of table cells (C85, C86): the theorems, each with a concrete case of its
    hypotheses. Proofs are in CellThms.v and CellAlign.v, concrete cells in CellWit.v,
    specifications in CellSpec.v, ProcSpec.v and WriteSpec.v. *)
From Coq Require Import QArith.
From Verif Require Import GoStr Num Style Class Instr Engine Layout Table Lines LinesSpec WriteSpec WriteThms Proc RefEngine ProcView DrawSpec ProcSpec ProcWit LinesWit CellSpec CellThms CellAlign CellWit.
Local Open Scope nat_scope.

(** C85: a cell is framed around its area; its text, boxes and images are drawn inside the
    padding, one after the other. *)
Theorem C85_cell : forall (F : Num) (env : Env F) (eng : Engine F) callback, places eng -> page_stable (eng:=eng) ->
  forall pa x (s s' : PS F eng), renderCell env callback pa x s = Ok tt s' ->
  cell_drawn env callback (c_sty x) (c_iss x) (pa_x0 pa) (pa_y0 pa) (pa_x1 pa) (pa_y1 pa) s s'.
Proof. exact @cell_ok. Qed.
Print Assumptions C85_cell.
Example C85_laws : places RefEngine /\ page_stable (eng:=RefEngine).
Proof. split; [exact ref_places|exact ref_stable]. Qed.
(** A cell of the area (10, 20) - (20, 80) with padding 2, a word, a box and an image. *)
Example C85_example :
  match renderCell (doc_env [] [] [] []) (fun _ => ret tt) demo_area
          (demo_cell [ITextBlock ($"aa"); IBox no_style [ITextBlock ($"bb")]; IImage no_style ($"i")]) ref_state with
  | Ok tt s' => marks (flat (ps_trace s')) = [inl 44%Q; inr ($"aa"); inl 28%Q; inl 28%Q; inr ($"bb"); inl 40%Q; inl 22%Q; inl 22%Q]
  | _ => False end.
Proof. vm_compute. reflexivity. Qed.

(** C86 fails for block text: its height is measured without hyphenation, so that the first line
    of a cell at the top of the page can be written above the cell, off the page. *)
Theorem C86_block_refuted : exists env body s y top,
  process env 3 ref_start = Ok None s /\ e_body env = body /\ (exists st rh xrows, body = [ITable (XTable st rh xrows)]) /\
  y_of_text ($"aaaa") None (flat (ps_trace s)) = Some y /\ cell_tops (flat (ps_trace s)) = [top] /\ (y + 12 < top)%Q.
Proof. exact block_above. Qed.
Print Assumptions C86_block_refuted.
(** It holds for other texts, in cells without boxes and images: the text begins at the upper
    edge of the inner area, ends at its lower edge, or has as much space above as below. *)
Theorem C86_aligned_partial : forall (eng : Engine NumQ) tw fh font, writer eng tw fh font -> places eng ->
  (forall (v : NumQ) (e : est eng), currentPage (simple (SetX v) e) = currentPage e /\ currentPage (simple (SetY v) e) = currentPage e) ->
  forall env callback h pa (x : tcell NumQ) (s s' : PS NumQ eng),
  let sty := c_sty x in
  beqb (HAlign (SAlign sty)) ($"block") = false -> c_iss x <> [] -> (forall i, In i (c_iss x) -> text_only i = true) ->
  (0 <= LineSpacing (SDim sty) * h)%Q ->
  fh (SFont sty) = h -> (forall n f, In f (text_fonts (e_mut env) false n sty (c_iss x)) -> fh f = h) ->
  renderCell env callback pa x s = Ok tt s' ->
  exists before y after, wrote s s' (before ++ Simple (SetY (F:=NumQ) y) :: after) /\ no_sety before /\ no_sety after /\
    let upper := (pa_y0 pa + QTop (Padding (SBox sty)))%Q in
    let lower := (pa_y1 pa - QBottom (Padding (SBox sty)))%Q in
    let ending := (snd (getXY (ps_eng s')) - (LineSpacing (SDim sty) - 1) * h)%Q in
    if beqb (VAlign (SAlign sty)) ($"middle") then ((0 <= y)%Q -> y - upper == lower - ending)%Q
    else if beqb (VAlign (SAlign sty)) ($"bottom") then ((0 <= y)%Q -> ending == lower)%Q
    else y = upper.
Proof. exact @cell_aligned. Qed.
Print Assumptions C86_aligned_partial.
Example C86_laws : writer LineEngine (fun _ s => inject_Z (Z.of_nat (List.length s))) (fun f => PointSize f) r_font /\ places LineEngine /\
  (forall (v : NumQ) (e : est LineEngine), currentPage (simple (SetX v) e) = currentPage e /\ currentPage (simple (SetY v) e) = currentPage e).
Proof. split; [exact line_engine_writer|split; [exact line_places|exact line_keeps]]. Qed.
(** Two lines of height 12 with spacing 3/2 in a cell from 20 to 80: 13 units above and below. *)
Example C86_example : let x := demo_cell [ITextBlock ($"aa bbb")] in
  beqb (HAlign (SAlign (c_sty x))) ($"block") = false /\ (forall i, In i (c_iss x) -> text_only i = true) /\
  (forall n f, In f (text_fonts (e_mut (doc_env [] [] [] [])) false n (c_sty x) (c_iss x)) -> PointSize f = 12%Q) /\
  match renderCell (doc_env [] [] [] []) (fun _ => ret tt) demo_area x line_state with
  | Ok tt s' => marks (flat (ps_trace s')) = [inl 35%Q; inr ($"aa"); inr ($"bbb")] /\ (snd (@getXY NumQ LineEngine (ps_eng s')) == 71)%Q
  | _ => False end.
Proof.
  split; [reflexivity|]. split; [intros i [<-|[]]; reflexivity|]. split; [|vm_compute; split; reflexivity].
  intros n f H. cbn [c_sty c_iss demo_cell text_fonts reading] in H. destruct (text_words _ _); cbn [negb andb] in H; [destruct H|]. destruct H as [<-|[]]. reflexivity.
Qed.
