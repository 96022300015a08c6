(** An engine with a cursor and fonts in binary64, and a cell, for C86. *)
From Coq Require Import ZArith Reals.
From Verif Require Import GoStr GoStrFacts Num Style Class Instr Engine Layout Grid Table Proc Lines LinesSpec WriteSpec ProcSpec FloatSpec FloatWriteSpec ProcView FloatCellSpec FloatWit FloatFillWit.

(** A character is 1.1 wide, all fonts are 5 high. *)
Definition sheet : Engine NumF64 := mkEngine NumF64 (NumF64 * NumF64 * Font NumF64)
  (fun e => fst e) (fun _ => (of_Z 10, of_Z 10, of_Z 200, of_Z 287)) (fun _ => of_Z 210) (fun _ => of_Z 297)
  (fun _ => (of_Z 10, of_Z 10, of_Z 10, of_Z 10)) (fun _ => of_Z 5) (fun e s => ruler_width (snd e) s)
  (fun _ => 1%Z) (fun _ => None)
  (fun c e => match c with
    | SetX x => (x, snd (fst e), snd e) | SetY y => (fst (fst e), y, snd e)
    | LineFeed n => (of_Z 10, add (snd (fst e)) (mul (of_Z 5) n), snd e)
    | ChangeFont f => (fst e, f) | _ => e end)
  (fun e => EDone e) (fun s e => EDone (add (fst (fst e)) (ruler_width (snd e) s), snd (fst e), snd e)) (fun e => EDone e) (fun _ => None).
Lemma sheet_printer : float_printer sheet ruler_width (fun _ => of_Z 5) snd.
Proof.
  split.
  - reflexivity.
  - reflexivity.
  - intros f e. split; reflexivity.
  - intros r g b e. split; reflexivity.
  - intros x e. split; reflexivity.
  - intros n e. split; [reflexivity|]. intros _. reflexivity.
  - intros s e. eexists. split; [reflexivity|]. split; reflexivity.
  - intros e. split; reflexivity.
Qed.
Lemma sheet_places : places sheet.
Proof. constructor; reflexivity. Qed.
Lemma sheet_keeps : forall (v : NumF64) (e : est sheet), currentPage (simple (SetX v) e) = currentPage e /\ currentPage (simple (SetY v) e) = currentPage e.
Proof. split; reflexivity. Qed.
Definition sheet_state : PS NumF64 sheet := mkPS (eng:=sheet) (of_Z 10, of_Z 10, SFont DefaultStyle) DefaultStyle false [].
Definition sheet_calls : cb -> M sheet unit := fun _ => ret tt.
(** Line spacing 1, a padding of 0.3 on all sides, aligned left and at the given edge. *)
Definition sheet_style (valign : bytes) : Styles NumF64 :=
  let d := @DefaultStyle NumF64 in let p := f_tenths 3 in let w := SDim d in
  mkStyles (SFont d) (mkBox (Border (SBox d)) (mkQuad p p p p) (Margin (SBox d))) (mkDim (Width w) (Height w) (of_Z 1) (OffsetX w) (OffsetY w)) (ColumnWidth d) (mkAlign ($"left") valign) (SColor d) (LineWidth d).
Definition sheet_cell (valign t : bytes) : tcell NumF64 :=
  mkCell (sheet_style valign) [ITextBlock t] 1 1 0 0 zero zero zero None [] [] false.
(** From (10, 20) to (32.6, 50). *)
Definition sheet_area : PrintableArea NumF64 := mkPA (of_Z 10) (of_Z 20) (f_tenths 326) (of_Z 50).
Definition two_words : bytes := $"aaaaaaaaa bbbbbbbbb".
(** The text is measured as one line and written as two: 22.6 wide, it has an inner width of
    (32.6 - 0.3) - (10 + 0.3) = 22.000000000000004 when measured and of
    (32.6 - 10) - 0.3 - 0.3 = 22 when written, and the words and their spaces are 22 wide. *)
Lemma over_the_edge : exists s',
  renderCell f_env sheet_calls sheet_area (sheet_cell ($"bottom") two_words) sheet_state = Ok tt s' /\
  ltb (add (sub (of_Z 50) (f_tenths 3)) (div (of_Z 49) (of_Z 10))) (snd (getXY (ps_eng s'))) = true.
Proof.
  assert (E : match renderCell f_env sheet_calls sheet_area (sheet_cell ($"bottom") two_words) sheet_state with
    | Ok tt s' => ltb (add (sub (of_Z 50) (f_tenths 3)) (div (of_Z 49) (of_Z 10))) (snd (getXY (ps_eng s'))) | _ => false end = true) by (vm_cast_no_check (eq_refl true)).
  destruct (renderCell _ _ _ _ _) as [[] s'| |]; try discriminate E. exists s'. split; [reflexivity|exact E].
Qed.
Lemma cell_over : exists env callback pa (x : tcell NumF64) (s s' : PS NumF64 sheet), let sty := c_sty x in
  beqb (HAlign (SAlign sty)) ($"block") = false /\ VAlign (SAlign sty) = $"bottom" /\ LineSpacing (SDim sty) = of_Z 1 /\
  (exists t, c_iss x = [ITextBlock t]) /\
  renderCell env callback pa x s = Ok tt s' /\
  let lower := sub (pa_y1 pa) (QBottom (Padding (SBox sty))) in
  ltb (add lower (f_tenths 49)) (snd (getXY (ps_eng s'))) = true.
Proof.
  destruct over_the_edge as (s' & E & L). exists f_env, sheet_calls, sheet_area, (sheet_cell ($"bottom") two_words), sheet_state, s'. cbv zeta.
  split; [reflexivity|]. split; [reflexivity|]. split; [reflexivity|]. split; [exists two_words; reflexivity|]. split; [exact E|exact L].
Qed.

(** A table, 27.6 wide, of one cell with a padding of 0.6 on all sides: 27.6 - (0.6 + 0.6) =
    26.400000000000002 when the height of its row is computed, (37.6 - 10) - 0.6 - 0.6 = 26.4 when
    its text is written. *)
Definition long_words : bytes := $"aaaaaaaaaaa bbbbbbbbbbb".
Definition f_table : instr NumF64 :=
  let p := VFloat (F:=NumF64) (f_tenths 6) in
  ITable (XTable (mkStyled [[([2; 0]%nat, VFloat (F:=NumF64) (f_tenths 276))]] []) 0
    [XRow no_style [XCell (mkStyled [[([1; 1; 0]%nat, p); ([1; 1; 1]%nat, p); ([1; 1; 2]%nat, p); ([1; 1; 3]%nat, p)]] []) 1 1 [ITextBlock long_words]]]).
Definition table_env : Env NumF64 :=
  mkEnv (e_mut f_env) (e_mut_sel f_env) (e_hyph f_env) (e_resolve f_env) (e_image f_env) (e_shuffle f_env) [] [] [f_table].
Lemma below_frame : exists env (e : est sheet) s st cst,
  e_header env = [] /\ e_footer env = [] /\ e_body env = [ITable (XTable st 0 [XRow no_style [XCell cst 1 1 [ITextBlock long_words]]])] /\
  e_hyph env = (fun w => [w]) /\
  process env 3 e = Ok None s /\
  exists y1 y2 low,
    written_at (of_Z 5) (snd (getXY e)) (map ev_cmd (ps_trace s)) = [($"aaaaaaaaaaa", y1); ($"bbbbbbbbbbb", y2)] /\
    corners (map ev_cmd (ps_trace s)) <> [] /\ Forall (fun y => leb y low = true) (corners (map ev_cmd (ps_trace s))) /\ ltb low y2 = true.
Proof.
  exists table_env, (ps_eng sheet_state).
  assert (E : match process table_env 3 (ps_eng sheet_state) with
    | Ok None s' => match written_at (of_Z 5) (of_Z 10) (map ev_cmd (ps_trace s')) with
      | [(a, _); (b, y2)] => beqb a ($"aaaaaaaaaaa") && beqb b ($"bbbbbbbbbbb") && ltb (f_tenths 170) y2 | _ => false end &&
      match corners (map ev_cmd (ps_trace s')) with [] => false | l => forallb (fun y => leb y (f_tenths 170)) l end
    | _ => false end = true) by (vm_cast_no_check (eq_refl true)).
  destruct (process table_env 3 (ps_eng sheet_state)) as [[x|] s| |]; try discriminate E. exists s. do 2 eexists.
  split; [reflexivity|]. split; [reflexivity|]. split; [reflexivity|]. split; [reflexivity|]. split; [reflexivity|].
  apply andb_prop in E as [E1 E2]. change (snd (getXY (ps_eng sheet_state))) with (of_Z 10 : NumF64).
  destruct (written_at _ _ _) as [|[a y1] [|[b y2] [|? ?]]]; try discriminate E1. apply andb_prop in E1 as [E1 L]. apply andb_prop in E1 as [Ea Eb].
  apply beqb_eq in Ea, Eb. subst a b. exists y1, y2, (f_tenths 170). split; [reflexivity|].
  destruct (corners _) as [|c l]; [discriminate E2|]. split; [discriminate|]. split; [|exact L]. apply Forall_forall. apply forallb_forall. exact E2.
Qed.
