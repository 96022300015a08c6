(** Where the words of text boxes and table cells are printed (C98). *)
From Coq Require Import QArith Lia Lqa.
From Verif Require Import GoStr GoStrFacts Num Style Class Instr Engine Layout LayoutSpec LayoutFacts Grid Table Lines LinesSpec LinesLink WriteSpec WriteFacts Proc EngineFacts DrawSpec DrawFacts ProcInv ProcFrame ProcView ProcSpec ProcThms ProcThms2 ProcThms3 CellSpec CellThms PlaceSpec PlaceThms.
Local Open Scope nat_scope.
Local Notation Q := QArith_base.Q.

Lemma silent_app : forall a b, silent a -> silent b -> silent (a ++ b).
Proof. intros a b Ha Hb t H. apply in_app_or in H as [H|H]; [exact (Ha t H)|exact (Hb t H)]. Qed.
Lemma silent_simple : forall l, silent (map (Simple (F:=NumQ)) l).
Proof. intros l t H. apply in_map_iff in H as (c & E & _). discriminate E. Qed.
Lemma silent_fonts : forall l, only_fonts (F:=NumQ) l -> silent l.
Proof. intros l H t Ht. destruct (proj1 (Forall_forall _ _) H _ Ht) as (f & E). discriminate E. Qed.
Lemma silent_one : forall c : scmd NumQ, silent [Simple c].
Proof. intros c. exact (silent_simple [c]). Qed.
Lemma fits_eq : forall tw w w' row, (w == w')%Q -> fits tw w row -> fits tw w' row.
Proof. intros tw w w' [|[l f t] [|x row]] E H; [exact H| |exact H]. cbn [fits] in *. lra. Qed.
Lemma between_eq : forall tw row a b a' b', (a == a')%Q -> (b == b')%Q -> between tw a b row -> between tw a' b' row.
Proof.
  intros tw. induction row as [|[[l|] f t] row IH]; intros a b a' b' Ea Eb H; cbn [between] in *; [lra| |exact H].
  destruct H as [H1 H2]. split; [lra|]. exact (IH _ _ _ _ (Qeq_refl _) Eb H2).
Qed.

Section Cell.
Context (env : Env NumQ) {eng : Engine NumQ} (callback : cb -> M eng unit).
Variables (tw : Font NumQ -> bytes -> Q) (right : Q).
Hypothesis P : printer eng tw right.
Hypothesis Hplace : places eng.
Local Notation PS := (PS NumQ eng).
Local Notation mut := (e_mut env).
Local Notation hyph := (e_hyph env).
Hypothesis Hh : forall w, one_line w -> Forall one_line (hyph w).
Let Hpage : page_stable (eng:=eng) := printer_stable tw right P.

(** A text written where the cursor was just put. *)
Lemma put_text : forall sty iss width x (s s' : PS), (forall f, In f (fonts_of mut sty iss) -> regular tw f) -> In (HAlign (SAlign sty)) [$"left"; $"center"; $"right"; $"block"] ->
  writeTextFnc callback mut hyph sty iss width sty (emitted (SetX (F:=NumQ) x) s) = Ok tt s' ->
  exists cmds, wrote (emitted (SetX (F:=NumQ) x) s) s' cmds /\
    ((0 <= x)%Q -> (x + width <= right)%Q -> forall f ox row, In row (rows tw f ox [] cmds) -> fits tw width row -> between tw x (x + width)%Q row).
Proof.
  intros sty iss width x s s' Hreg Ha H.
  destruct (fnc_written env callback Hplace Hpage _ _ _ _ _ H) as (text & Wt & _).
  exists text. split; [exact Wt|]. intros Hx Hr f ox row Hrow Hf.
  assert (X : fst (getXY (ps_eng (emitted (SetX (F:=NumQ) x) s))) = x) by (rewrite emitted_eng; exact (P_x _ _ _ P x _ Hx)).
  destruct (text_placed mut tw right P callback hyph Hh iss width sty _ s' Hreg ltac:(cbn zeta; rewrite X; exact Hx) ltac:(cbn zeta; rewrite X; exact Hr) Ha H) as (cmds & Wr & R). rewrite X in R.
  assert (E : cmds = text).
  { destruct Wr as (e1 & E1 & <-), Wt as (e2 & E2 & <-). rewrite E1 in E2. apply app_inv_head in E2. rewrite E2. reflexivity. }
  subst cmds. exact (R f ox row Hrow Hf).
Qed.

Lemma box_placed : forall st iss pa (s s' : PS), let sty := mut st (ps_sty s) in let pad := Padding (SBox sty) in
  (forall f, In f (fonts_of mut sty iss) -> regular tw f) ->
  In (HAlign (SAlign sty)) [$"left"; $"center"; $"right"; $"block"] ->
  renderTextBox env callback st iss pa s = Ok tt s' ->
  exists before frame text after x0 y0 x1 y1, wrote s s' (before ++ frame ++ text ++ after) /\
    silent before /\ draws_box x0 y0 x1 y1 sty frame /\ silent after /\
    ((0 <= x0 + QLeft pad)%Q -> (x1 - QRight pad <= right)%Q -> forall f ox row, In row (rows tw f ox [] text) ->
       fits tw (x1 - x0 - QLeft pad - QRight pad)%Q row -> between tw (x0 + QLeft pad)%Q (x1 - QRight pad)%Q row).
Proof.
  intros st iss pa s s' sty pad Hreg Ha H. unfold renderTextBox in H. cbv zeta in H.
  apply bind_ok in H as (y & sa & H1 & H). apply lift_ok in H1. injection H1 as <- <-.
  apply bind_ok in H as (h & s1 & H1 & H). apply lift_ok in H1. apply height_measured in H1.
  apply bind_ok in H as (xy & sa & H2 & H). apply lift_ok in H2. injection H2 as <- <-.
  apply bind_ok in H as (m & sa & H2 & H). apply lift_ok in H2. injection H2 as <- <-.
  apply bind_ok in H as (ph & sa & H2 & H). apply lift_ok in H2. injection H2 as <- <-.
  apply bind_ok in H as (pv & sa & H2 & H). apply lift_ok in H2. injection H2 as <- <-.
  apply bind_ok in H as ([px py] & s2 & H2 & H).
  assert (B : exists br, wrote s1 s2 br /\ silent br).
  { destruct (negb (ps_prevent s1) && _)%bool.
    - apply bind_ok in H2 as ([] & sb & H2 & H3). apply lift_ok in H3. injection H3 as _ <-. exists [AddPage]. split; [exact (wrote_command _ _ _ _ _ H2)|]. intros t [K|[]]. discriminate K.
    - injection H2 as _ <-. exists []. split; [apply wrote_nil|intros t []]. }
  destruct B as (br & Wb & Sb).
  apply bind_ok in H as ([] & sa & H3 & H). apply lift_ok in H3. rewrite drawBox_run in H3. injection H3 as <-.
  apply bind_ok in H as ([] & sb & H4 & H). apply wrote_lift_emit in H4 as [Eb W4].
  apply bind_ok in H as ([] & s3 & H5 & H). apply wrote_lift_emit in H5 as [E3 W5].
  apply bind_ok in H as ([] & s4 & H6 & H). apply bind_ok in H as ([] & s5 & H7 & H). apply wrote_lift_emit in H7 as [E5 W7]. apply lift_reset in H.
  fold sty in H1, H6. fold pad in H6. set (width := box_text_width pa sty) in *.
  destruct (box_height_fonts env Hplace Hpage _ _ _ _ _ _ H1) as (ms & Wm & Om & _).
  set (x0 := (px + OffsetX (SDim sty))%Q). set (y0 := (py + OffsetY (SDim sty))%Q).
  set (x1 := (x0 + width + QLeft pad + QRight pad)%Q). set (y1 := (y0 + h + QTop pad + QBottom pad)%Q).
  assert (T : exists text, wrote s3 s4 text /\ ((0 <= x0 + QLeft pad)%Q -> (x0 + QLeft pad + width <= right)%Q -> forall f ox row, In row (rows tw f ox [] text) -> fits tw width row -> between tw (x0 + QLeft pad)%Q (x0 + QLeft pad + width)%Q row)).
  { destruct iss as [|i iss].
    - injection H6 as <-. exists []. split; [apply wrote_nil|]. intros _ _ f ox row [<-|[]] [].
    - rewrite E3 in H6 |- *. exact (put_text sty _ width _ sb s4 Hreg Ha H6). }
  destruct T as (text & W6 & Tw).
  exists (ms ++ br), (map Simple (box_cmds (F:=NumQ) x0 y0 x1 y1 sty)), ([Simple (SetY (F:=NumQ) (y0 + QTop pad)%Q); Simple (SetX (F:=NumQ) (x0 + QLeft pad)%Q)] ++ text), ([Simple (SetY (F:=NumQ) y1)] ++ reset_cmds s'), x0, y0, x1, y1.
  split; [|split; [|split; [|split]]].
  - rewrite <- !app_assoc. eapply wrote_app; [exact Wm|]. eapply wrote_app; [exact Wb|]. eapply wrote_app; [apply wrote_emits|]. eapply wrote_cons; [exact W4|]. eapply wrote_cons; [exact W5|].
    eapply wrote_app; [exact W6|]. eapply wrote_cons; [exact W7|]. rewrite H. unfold reset_cmds. rewrite !reset_sty. apply wrote_reset.
  - apply silent_app; [apply silent_fonts; exact Om|exact Sb].
  - intros p Hp. apply box_paint. exact Hp.
  - apply (silent_app [Simple (SetY (F:=NumQ) y1)]); [apply silent_one|]. unfold reset_cmds. exact (silent_simple [_; _]).
  - intros Hx Hr f ox row Hrow Hf.
    assert (Ew : (x1 - x0 - QLeft pad - QRight pad == width)%Q) by (unfold x1; ring). assert (Ex : (x0 + QLeft pad + width == x1 - QRight pad)%Q) by (unfold x1; ring).
    apply (between_eq tw row (x0 + QLeft pad)%Q (x0 + QLeft pad + width)%Q); [reflexivity|exact Ex|].
    apply (Tw Hx ltac:(rewrite Ex; exact Hr) f (if Qle_bool 0 (x0 + QLeft pad)%Q then Some (x0 + QLeft pad)%Q else None) row); [exact Hrow|exact (fits_eq _ _ _ _ Ew Hf)].
Qed.

Lemma no_children : forall va pa iss (s s' : PS), (forall i, In i iss -> text_only i = true) -> cell_boxes env callback va pa iss s = Ok tt s' -> s' = s.
Proof.
  intros va pa. induction iss as [|i iss IH]; intros s s' Ht H; cbn [cell_boxes] in H; [injection H as <-; reflexivity|].
  apply bind_ok in H as ([] & s1 & H1 & H). assert (T := Ht i (or_introl eq_refl)).
  assert (s1 = s) by (destruct i; try discriminate T; injection H1 as <-; reflexivity). subst s1. exact (IH _ _ (fun j Hj => Ht j (or_intror Hj)) H).
Qed.
Lemma cell_placed : forall pa (x : tcell NumQ) (s s' : PS), let sty := c_sty x in let pad := Padding (SBox sty) in
  (forall f, In f (fonts_of mut sty (c_iss x)) -> regular tw f) ->
  In (HAlign (SAlign sty)) [$"left"; $"center"; $"right"; $"block"] -> (forall i, In i (c_iss x) -> text_only i = true) ->
  renderCell env callback pa x s = Ok tt s' ->
  exists frame text after, wrote s s' (frame ++ text ++ after) /\
    draws_box (pa_x0 pa) (pa_y0 pa) (pa_x1 pa) (pa_y1 pa) sty frame /\ silent after /\
    ((0 <= pa_x0 pa + QLeft pad)%Q -> (pa_x1 pa - QRight pad <= right)%Q -> forall f ox row, In row (rows tw f ox [] text) ->
       fits tw (pa_x1 pa - pa_x0 pa - QLeft pad - QRight pad)%Q row -> between tw (pa_x0 pa + QLeft pad)%Q (pa_x1 pa - QRight pad)%Q row).
Proof.
  intros pa x s s' sty pad Hreg Ha Ht H. unfold renderCell in H. cbv zeta in H. fold sty in H. fold pad in H.
  apply bind_ok in H as ([] & s1 & H1 & H). apply lift_ok in H1. rewrite drawBox_run in H1. apply pair_equal_spec in H1 as [_ <-].
  apply bind_ok in H as ([] & s2 & H2 & H). apply bind_ok in H as ([] & s3 & H3 & H). apply wrote_lift_emit in H3 as [E3 W3]. apply (no_children _ _ _ _ _ Ht) in H. subst s'.
  set (x0 := (pa_x0 pa + QLeft pad)%Q). set (width := (pa_x1 pa - pa_x0 pa - QLeft pad - QRight pad)%Q).
  assert (T : exists text, wrote (emits (box_cmds (pa_x0 pa) (pa_y0 pa) (pa_x1 pa) (pa_y1 pa) sty) s) s2 text /\
    ((0 <= x0)%Q -> (x0 + width <= right)%Q -> forall f ox row, In row (rows tw f ox [] text) -> fits tw width row -> between tw x0 (x0 + width)%Q row)).
  { destruct (c_iss x) as [|i iss].
    - injection H2 as <-. exists []. split; [apply wrote_nil|]. intros _ _ f ox row [<-|[]] [].
    - apply bind_ok in H2 as (th & sm & H1 & H2). apply lift_ok in H1. destruct (height_fonts env Hplace Hpage _ _ _ _ _ _ H1) as (ms & Wm & Om & _).
      apply bind_ok in H2 as ([] & sa & Hd & H2). apply (lift_dropped (eng:=eng)) in Hd as [Ea Wa].
      apply bind_ok in H2 as ([] & sb & Hb & H2). apply wrote_lift_emit in Hb as [Eb Wb].
      rewrite Eb in H2. destruct (put_text sty _ _ _ _ _ Hreg Ha H2) as (cmds & Wr & R). rewrite <- Eb in Wr.
      eexists. split; [eapply wrote_app; [exact Wm|eapply wrote_cons; [exact Wa|eapply wrote_cons; [exact Wb|exact Wr]]]|].
      intros Hx Hr f ox row Hrow Hf.
      assert (K : forall f ox rest, exists f' ox', rows tw f ox [] (ms ++ rest) = rows tw f' ox' [] rest).
      { clear -Om. induction Om as [|c l (f & ->) Om IH]; intros f0 ox rest; [exists f0, ox; reflexivity|]. cbn [app rows]. apply IH. }
      destruct (K f ox (Simple (SetY (F:=NumQ) (dropped (VAlign (SAlign sty)) (pa_y0 (with_padding pad pa)) (sub (pa_height (with_padding pad pa)) th))) :: Simple (SetX (F:=NumQ) (pa_x0 (with_padding pad pa))) :: cmds)) as (f' & ox' & E).
      rewrite E in Hrow. cbn [rows] in Hrow. exact (R Hx Hr _ _ row Hrow Hf). }
  destruct T as (text & Wt & Tw). eexists _, text, _. split; [eapply wrote_app; [apply wrote_emits|eapply wrote_app; [exact Wt|exact W3]]|].
  split; [intros p Hp; apply box_paint; exact Hp|]. split; [apply silent_one|]. intros Hx Hr f ox row Hrow Hf.
  assert (Ex : (x0 + width == pa_x1 pa - QRight pad)%Q) by (unfold x0, width; ring).
  apply (between_eq tw row x0 (x0 + width)%Q); [reflexivity|exact Ex|]. apply (Tw Hx ltac:(rewrite Ex; exact Hr) f ox row Hrow Hf).
Qed.
End Cell.
