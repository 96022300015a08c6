(** Concrete cells for C85 and C86. *)
From Coq Require Import QArith Lia Lqa.
From Verif Require Import GoStr Num Style Class Instr Engine Layout Grid Table Lines LinesSpec WriteSpec Proc RefEngine ProcView DrawSpec DrawWit ProcSpec ProcWit TableWit ProcFrame ImageFacts SizeThms CellSpec.
Local Open Scope nat_scope.

(** Block text at the bottom of a cell of width 10. *)
Definition block_cell : Styled NumQ := mkStyled [[([4; 0], VStr (F:=NumQ) ($"block")); ([4; 1], VStr (F:=NumQ) ($"bottom")); ([3; 0], VFloat (F:=NumQ) 10%Q)]] [].
Definition parts_env (body : list (instr NumQ)) : Env NumQ :=
  let e := doc_env [] [] [] body in
  mkEnv (e_mut e) (e_mut_sel e) (fun w => if beqb w ($"bbbbbb") then [$"bbb"; $"bbb"] else [w]) (e_resolve e) (e_image e) (e_shuffle e) [] [] body.
Definition block_body : list (instr NumQ) := [ITable (XTable no_style 0 [XRow no_style [XCell block_cell 1 1 [ITextBlock ($"aaaa bbbbbb cccc")]]])].

Definition cell_tops (l : list (cmd NumQ)) : list Q := flat_map (fun c => match c with Simple (FillRect _ y _ _) => [y] | _ => [] end) l.
Lemma block_above : exists env body s y top,
  process env 3 ref_start = Ok None s /\ e_body env = body /\ (exists st rh xrows, body = [ITable (XTable st rh xrows)]) /\
  y_of_text ($"aaaa") None (flat (ps_trace s)) = Some y /\ cell_tops (flat (ps_trace s)) = [top] /\ (y + 12 < top)%Q.
Proof.
  destruct (ok_none (process (parts_env block_body) 3 ref_start) (fun s => option_map Qred (y_of_text ($"aaaa") None (flat (ps_trace s))) = Some (-8)%Q /\ map Qred (cell_tops (flat (ps_trace s))) = [21 # 2]))
    as (s & H1 & H2 & H3); [vm_compute; split; reflexivity|].
  destruct (y_of_text ($"aaaa") None (flat (ps_trace s))) as [y|] eqn:Ey; [|discriminate H2]. cbn [option_map] in H2. injection H2 as H2.
  destruct (cell_tops (flat (ps_trace s))) as [|top [|? ?]] eqn:Et; try discriminate H3. cbn [map] in H3. injection H3 as H3.
  exists (parts_env block_body), block_body, s, y, top. split; [exact H1|]. split; [reflexivity|]. split; [eexists _, _, _; reflexivity|]. split; [exact Ey|]. split; [exact Et|].
  rewrite <- (Qred_correct y), <- (Qred_correct top), H2, H3. reflexivity.
Qed.

(** A cell with a text of two lines, padding 2 and middle alignment on the engine LineEngine. *)
Definition mid_style : Styles NumQ :=
  let d := @DefaultStyle NumQ in
  mkStyles (SFont d) (mkBox (Border (SBox d)) (mkQuad (2%Q : NumQ) (2%Q : NumQ) (2%Q : NumQ) (2%Q : NumQ)) (Margin (SBox d))) (SDim d) (ColumnWidth d) (mkAlign ($"left") ($"middle")) (SColor d) (LineWidth d).
Lemma line_places : places LineEngine.
Proof. constructor; reflexivity. Qed.
Lemma line_keeps : forall (v : NumQ) (e : est LineEngine), currentPage (simple (SetX v) e) = currentPage e /\ currentPage (simple (SetY v) e) = currentPage e.
Proof. split; reflexivity. Qed.
(** The heights set and used, and the texts written. *)
Definition marks (l : list (cmd NumQ)) : list (Q + bytes) :=
  flat_map (fun c : cmd NumQ => match c with
    | Simple (SetY y) => [inl (Qred y)]
    | Simple (PutImage _ _ y _ _) => [inl (Qred y)]
    | WriteText t => [inr t]
    | _ => [] end) l.
Definition demo_cell (iss : list (instr NumQ)) : tcell NumQ :=
  mkCell mid_style iss 1 1 0 0 (0%Q : NumQ) (0%Q : NumQ) (0%Q : NumQ) None [] [] false.
Definition demo_area : PrintableArea NumQ := mkPA (F:=NumQ) 10%Q 20%Q 20%Q 80%Q.
Definition line_state : PS NumQ LineEngine := mkPS (eng:=LineEngine) (mkRS 1 10 10 ref_font false None) DefaultStyle false [].
