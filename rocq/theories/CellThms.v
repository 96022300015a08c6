(** Proofs about table cells (C85). *)
From Coq Require Import Lia QArith.
From Verif Require Import GoStr GoStrFacts Num Style Class Instr Engine Layout LayoutSpec LayoutFacts Grid Table Lines LinesSpec LinesLink WriteSpec WriteFacts Proc EngineFacts DrawSpec DrawFacts ProcInv ProcFrame ProcView ProcSpec ProcThms ProcThms2 ProcThms3 CellSpec.
Local Open Scope nat_scope.

Section Cell.
Context {F : Num} (env : Env F) {eng : Engine F} (callback : cb -> M eng unit).
Local Notation PS := (PS F eng).
Local Notation mut := (e_mut env).
Local Notation hyph := (e_hyph env).
Hypothesis Hplace : places eng.
Hypothesis Hpage : page_stable (eng:=eng).

Lemma fonts_only : forall fs, only_fonts (F:=F) (map (fun f => Simple (ChangeFont f)) fs).
Proof. intros fs. apply Forall_forall. intros c Hc. apply in_map_iff in Hc as (f & <- & _). eauto. Qed.
Definition measured (s s1 : PS) : Prop := exists l, wrote s s1 l /\ only_fonts l /\ getXY (ps_eng s1) = getXY (ps_eng s) /\ currentPage (ps_eng s1) = currentPage (ps_eng s).
Lemma fonts_page : forall fs (s : PS), currentPage (ps_eng (fonts_changed fs s)) = currentPage (ps_eng s).
Proof. induction fs as [|f fs IH]; intros s; [reflexivity|]. cbn [fonts_changed fold_left]. unfold fonts_changed in IH. rewrite IH, font_eng. apply Hpage. Qed.
Lemma measured_fonts : forall f fs (s : PS), measured s (fonts_changed fs (emitted (ChangeFont f) s)).
Proof.
  intros f fs s. eexists. split; [eapply wrote_cons; [apply wrote_emit|apply wrote_fonts]|]. split; [constructor; [eauto|apply fonts_only]|].
  rewrite (fonts_xy Hplace), fonts_page, !emitted_eng. split; [apply (L_font _ Hplace)|apply Hpage].
Qed.
Lemma measured_nil : forall s : PS, measured s s.
Proof. intros s. exists []. split; [apply wrote_nil|split; [constructor|split; reflexivity]]. Qed.
Lemma height_fonts : forall iss width sty (s s1 : PS) th, textHeight mut iss width sty s = (th, s1) ->
  measured s s1.
Proof.
  intros iss width sty s s1 th H. unfold textHeight in H. rewrite sbind_emit in H. unfold sbind at 1 in H.
  destruct (textLines_rules mut Hpage iss width sty (emitted (ChangeFont (SFont sty)) s)) as (lines & gs & E & _). rewrite E in H.
  unfold lines_height in H. rewrite !sbind_query in H. injection H as _ <-. apply measured_fonts.
Qed.
Lemma height_fonts_h : forall iss width sty (s s1 : PS) th, textHeightHyphenated mut hyph iss width sty s = (th, s1) ->
  measured s s1.
Proof.
  intros iss width sty s s1 th H. unfold textHeightHyphenated in H. rewrite sbind_emit in H. unfold sbind at 1 in H.
  destruct (textLinesHyphenated_rules mut hyph Hpage iss width sty (emitted (ChangeFont (SFont sty)) s)) as (lines & gs & E & _). rewrite E in H.
  unfold lines_height in H. rewrite !sbind_query in H. injection H as _ <-. apply measured_fonts.
Qed.
Lemma box_height_fonts : forall sty iss width (s s1 : PS) h, box_height env sty iss width s h s1 -> measured s s1.
Proof.
  intros sty iss width s s1 h H. unfold box_height in H. destruct (leb _ _); [|destruct H as [_ ->]; apply measured_nil]. destruct iss; [destruct H as [_ ->]; apply measured_nil|].
  unfold textHeightFnc in H. destruct (beqb _ _); [eapply height_fonts_h|eapply height_fonts]; exact H.
Qed.
Lemma lift_dropped : forall va y d (s s' : PS),
  lift (if beqb va ($"middle") then emit (SetY (add y (div d (of_Z 2)))) else if beqb va ($"bottom") then emit (SetY (add y d)) else emit (SetY y)) s = Ok tt s' ->
  s' = emitted (SetY (dropped va y d)) s /\ wrote s s' [Simple (SetY (dropped va y d))].
Proof. intros va y d s s' H. unfold dropped. destruct (beqb va ($"middle")); [|destruct (beqb va ($"bottom"))]; apply wrote_lift_emit; exact H. Qed.

Lemma children_drawn : forall va pa iss (s s' : PS), cell_boxes env callback va pa iss s = Ok tt s' -> children env callback va pa iss s s'.
Proof.
  intros va pa. induction iss as [|i iss IH]; intros s s' H; [injection H as <-; constructor|].
  cbn [cell_boxes] in H. apply bind_ok in H as ([] & s3 & H1 & H). apply IH in H.
  destruct i; try (injection H1 as <-; apply C_other; [discriminate|discriminate|exact H]).
  - apply bind_ok in H1 as (h & s1 & H1 & H2). apply lift_ok in H1. unfold textBoxHeight in H1. rewrite sbind_pair in H1. cbn [get fst snd] in H1.
    unfold sbind at 1 in H1. destruct (box_text_height _ _ _ _ s) as [h' sa] eqn:Eh. apply height_measured in Eh.
    rewrite sbind_pair in H1. unfold sret in H1. apply pair_equal_spec in H1 as [-> <-].
    apply bind_ok in H2 as ([] & s2 & H2 & H3). apply lift_dropped in H2 as [E2 W2].
    destruct (box_height_fonts _ _ _ _ _ _ Eh) as (ms & Wm & Om & Xm & _).
    eapply C_box with (measuring := ms); [exact Eh| | | | | |exact H3|exact H].
    + exact Wm.
    + exact Om.
    + eapply wrote_app; [|exact W2]. rewrite E2. unfold reset_cmds. rewrite !emitted_sty, !reset_sty. apply wrote_reset.
    + assert (Xr : getXY (ps_eng (snd (resetStyles sa))) = getXY (ps_eng s)) by (rewrite reset_eng; cbv zeta; rewrite (L_color _ Hplace), (L_font _ Hplace); exact Xm).
      rewrite E2, emitted_eng, <- Xr. apply (L_y_x _ Hplace).
    + rewrite E2, emitted_eng. apply (L_y _ Hplace).
  - apply bind_ok in H1 as ([] & s1 & H1 & H2). apply wrote_lift_emit in H1 as [E1 W1]. apply lift_ok in H2.
    eapply C_image; [exact W1| | |reflexivity| |exact H]; [rewrite E1, emitted_eng; apply (L_y_x _ Hplace)|rewrite E1, emitted_eng; apply (L_y _ Hplace)|]. unfold renderImage in H2. destruct (e_image env (e_resolve env source)) as [[wpx hpx]|].
    + rewrite sbind_pair in H2. cbn [get fst snd] in H2. rewrite sbind_query in H2.
      assert (Es : ps_sty s1 = ps_sty s) by (rewrite E1; apply emitted_sty). rewrite Es in H2. destruct (image_size _ _ _ _) as [w v]. cbn [fst snd] in *.
      rewrite emit_eq in H2. injection H2 as <-. apply wrote_emit.
    + injection H2 as <-. apply wrote_nil.
Qed.

Lemma cell_ok : forall pa x (s s' : PS), renderCell env callback pa x s = Ok tt s' ->
  cell_drawn env callback (c_sty x) (c_iss x) (pa_x0 pa) (pa_y0 pa) (pa_x1 pa) (pa_y1 pa) s s'.
Proof.
  intros pa x s s' H. unfold renderCell in H. cbv zeta in H. unfold cell_drawn. cbv zeta.
  apply bind_ok in H as ([] & s1 & H1 & H). apply lift_ok in H1. rewrite drawBox_run in H1. apply pair_equal_spec in H1 as [_ <-].
  apply bind_ok in H as ([] & s2 & H2 & H). apply bind_ok in H as ([] & s3 & H3 & H). apply wrote_lift_emit in H3 as [E3 W3]. apply children_drawn in H.
  eexists _, _, s2, s3. split; [apply wrote_emits|]. split; [intros p Hp; apply box_paint; exact Hp|]. split; [|split; [exact W3|split; [|exact H]]].
  - destruct (c_iss x) as [|i iss]; [injection H2 as <-; reflexivity|].
    apply bind_ok in H2 as (th & sm & H1 & H2). apply lift_ok in H1. destruct (height_fonts _ _ _ _ _ _ H1) as (ms & Wm & Om & Xm & _).
    apply bind_ok in H2 as ([] & sa & Ha & H2). apply lift_dropped in Ha as [Ea Wa].
    apply bind_ok in H2 as ([] & sb & Hb & H2). apply wrote_lift_emit in Hb as [Eb Wb].
    destruct (fnc_written env callback Hplace Hpage _ _ _ _ _ H2) as (text & Wt & Tw).
    eexists th, _, sm, sb, text. split; [exact H1|]. split; [exact Wm|]. split; [exact Om|]. split; [split; [|split]|].
    + rewrite Eb, emitted_eng. apply (L_x _ Hplace).
    + rewrite Eb, emitted_eng, (L_x_y _ Hplace), Ea, emitted_eng. apply (L_y _ Hplace).
    + eapply wrote_cons; [exact Wa|exact Wb].
    + split; [exact Wt|exact Tw].
  - rewrite E3, emitted_eng. apply (L_x _ Hplace).
Qed.
End Cell.
