(** The state in which the instructions of a body are processed (C116). *)
From Coq Require Import QArith Lia Permutation.
From Verif Require Import GoStr Num Style Class Instr Engine Layout LayoutSpec LayoutFacts Grid Table Lines LinesSpec LinesLink WriteSpec WriteFacts Proc EngineFacts DrawSpec DrawFacts ProcInv ProcFrame ProcView ProcSpec ProcThms ProcThms2 OutputSpec PaintSpec PrefixSpec.
From Verif Require Import ProcThms3 PrefixThms DrawThms TableView.

Section Break.
Context {F : Num} (env : Env F) {eng : Engine F}.
Hypothesis Hshuffle : forall l, Permutation (e_shuffle env l) l.
Lemma opened_frame : forall depth (e : est eng) s0, opening (callbacks env depth) (initial e) = Ok tt s0 -> frame0 (initial e) s0.
Proof.
  intros depth e s0 H. unfold opening in H.
  do 3 (apply bind_ok in H as ([] & ? & H1 & H); apply lift_ok in H1; rewrite emit_eq in H1; injection H1 as <-).
  apply bind_ok in H as ([] & s1 & H1 & H). apply bind_ok in H1 as (y & s2 & H2 & H1). apply lift_ok in H2. injection H2 as <- <-.
  apply lift_ok in H1. rewrite changeFont_eq in H1. injection H1 as <-.
  assert (G := command_frame (callbacks (eng:=eng) env depth) (callbacks_frame0 env Hshuffle depth) AddPage addPage). match type of H with _ ?s = _ => specialize (G s) end.
  unfold add_page in H. rewrite H in G. specialize (G ltac:(discriminate)). destruct G as [G _]. refine (frame0_trans _ _ _ _ G).
  split; [eexists; unfold font_changed; rewrite emitted_sty; reflexivity|reflexivity].
Qed.
Lemma body_step : forall pre i post depth (e : est eng) r s',
  process (with_body (pre ++ i :: post) env) depth e = Ok r s' ->
  exists f (s1 s2 : PS F eng) evs rest, processInstruction env (callbacks env depth) i s1 = Ok tt s2 /\
    ps_prevent s1 = false /\ ps_sty s1 = with_font f DefaultStyle /\ ps_prevent s2 = false /\
    ps_trace s2 = ps_trace s1 ++ evs /\ ps_trace s' = ps_trace s2 ++ rest.
Proof.
  intros pre i post depth e r s' H. rewrite process_split in H. apply bind_ok in H as ([] & s0 & A & H). apply bind_ok in H as ([] & sc & B & H).
  rewrite instrs_app in B. apply bind_ok in B as ([] & s1 & B & C). cbn [processInstructions] in C. apply bind_ok in C as ([] & s2 & C & D).
  assert (F0 := opened_frame _ _ _ A).
  assert (F1 := instructions_frame env Hshuffle (callbacks (eng:=eng) env depth) (callbacks_frame0 env Hshuffle depth) pre s0). rewrite B in F1. destruct F1 as [F1 _].
  assert (F2 := instructions_frame env Hshuffle (callbacks (eng:=eng) env depth) (callbacks_frame0 env Hshuffle depth) [i] s1). cbn [processInstructions] in F2. unfold bind in F2. rewrite C in F2. destruct F2 as [[_ P2] (evs & T2 & _)].
  destruct (frame0_trans _ _ _ F0 F1) as [[f E1] P1]. specialize (P1 eq_refl). specialize (P2 P1).
  assert (F3 := instructions_frame env Hshuffle (callbacks (eng:=eng) env depth) (callbacks_frame0 env Hshuffle depth) post s2). rewrite D in F3. destruct F3 as [_ (e3 & T3 & _)].
  assert (R : exists rest, ps_trace s' = ps_trace sc ++ rest).
  { unfold closing in H. apply bind_ok in H as (err & s4 & H4 & H). apply lift_ok in H4. injection H4 as <- <-.
    destruct (engError (ps_eng sc)); [injection H as <- <-; exists []; symmetry; apply app_nil_r|].
    apply bind_ok in H as ([] & s5 & H5 & H). apply lift_ok in H. injection H as <- <-.
    assert (G5 := command_adds (callbacks (eng:=eng) env depth) (callbacks_adds env Hshuffle depth) WritePDF writePDF sc). unfold write_pdf in H5. rewrite H5 in G5. destruct G5 as (l & T5 & _). eexists; exact T5. }
  destruct R as [rest T]. exists f, s1, s2, evs, (e3 ++ rest). split; [exact C|]. split; [exact P1|]. split; [exact E1|]. split; [exact P2|]. split; [exact T2|]. rewrite T, T3, app_assoc. reflexivity.
Qed.
End Break.
Lemma body_box : forall (env : Env NumQ) (eng : Engine NumQ), (forall l, Permutation (e_shuffle env l) l) ->
  places eng -> page_stable (eng:=eng) -> forall top depth,
  (forall s1 s2 : PS NumQ eng, add_page (callbacks env depth) s1 = Ok tt s2 -> snd (getXY (ps_eng s2)) = top) ->
  forall pre st iss post (e : est eng) r s', process (with_body (pre ++ IBox st iss :: post) env) depth e = Ok r s' ->
  exists f (s s1 : PS NumQ eng) h before frame rest x0 y0 x1 y1,
    let sty := e_mut env st (with_font f DefaultStyle) in
    let pad := Padding (SBox sty) in
    box_height env sty iss (sub (sub (effective_width (pg_area (fst (page_now s))) (Width (SDim sty))) (QLeft pad)) (QRight pad)) s h s1 /\
    map ev_cmd (ps_trace s') = before ++ frame ++ rest /\ draws_box x0 y0 x1 y1 sty frame /\
    (let '(_, _, _, m) := margins (ps_eng s1) in
     let bottom := sub (pageHeight (ps_eng s1)) m in
     ((top + h : Q) < bottom -> (y1 : Q) < bottom + OffsetY (SDim sty) + QTop pad + QBottom pad)%Q).
Proof.
  intros env eng Hs Hpl Hpg top depth Htop pre st iss post e r s' H.
  destruct (body_step env Hs _ _ _ _ _ _ _ H) as (f & s & s2 & evs & rest & C & P & E & _ & T2 & T). cbn [processInstruction] in C.
  apply bind_ok in C as (pg & sa & C1 & C). apply lift_ok in C1. 
  destruct (page_now_eq s) as [pg' Ep]. rewrite Ep in C1. injection C1 as <- <-. assert (Ef : pg' = fst (page_now s)) by (rewrite Ep; reflexivity). rewrite Ef in C.
  destruct (box_bottom env eng (callbacks env depth) Hpl Hpg top Htop st iss _ s s2 P C) as (h & s1 & s3 & fr & re & x0 & y0 & x1 & y1 & Bh & (ev & W & Wm) & D & Q). rewrite E in Bh, D, Q.
  exists f, s, s1, h, (map ev_cmd (ps_trace s3)), fr, (re ++ map ev_cmd rest), x0, y0, x1, y1. cbv zeta. split; [exact Bh|]. split; [|split; [exact D|exact Q]].
  rewrite T, W, !map_app, Wm, <- !app_assoc. reflexivity.
Qed.
Lemma body_table : forall (F : Num) (env : Env F) (eng : Engine F), (forall l, Permutation (e_shuffle env l) l) ->
  forall top depth, (forall s1 s2 : PS F eng, add_page (callbacks env depth) s1 = Ok tt s2 -> snd (getXY (ps_eng s2)) = top) ->
  forall pre st rh xrows post (e : est eng) r s', process (with_body (pre ++ ITable (XTable st rh xrows) :: post) env) depth e = Ok r s' ->
  exists f (s s1 : PS F eng) h t, ps_sty s = with_font f DefaultStyle /\ transformTable env st xrows s = (Some (h, t), s1) /\
    (t_columnCount t = 0%nat \/ exists evs rest before blocks s2 y',
      ps_trace s2 = ps_trace s1 ++ evs /\ ps_trace s' = ps_trace s2 ++ rest /\
      let '(_, _, _, bottom) := printableArea (ps_eng s1) in
      schedule env (callbacks env depth) h (t_rows t) rh (fst (getXY (ps_eng s1))) (snd (getXY (ps_eng s1))) bottom before blocks s1 s2 y' /\
      forall i b p y, nth_error blocks i = Some b -> b = p ++ [Row i y] ->
        ltb bottom (add (fold_left (fun v k => add v (height (t_rows t) k)) (headers (t_rows t) rh i) top) (tallest h (t_rows t) i)) = false ->
        ltb bottom (add y (tallest h (t_rows t) i)) = false).
Proof.
  intros F env eng Hs top depth Htop pre st rh xrows post e r s' H.
  destruct (body_step env Hs _ _ _ _ _ _ _ H) as (f & s & s3 & evs & rest & C & P & E & _ & T3 & T). cbn [processInstruction] in C.
  destruct (renderTable_schedule env (callbacks env depth) st rh xrows s s3 C) as (h & t & s1 & Tr & D).
  exists f, s, s1, h, t. split; [exact E|]. split; [exact Tr|]. destruct D as [[D _]|[_ (before & blocks & s2 & y' & D)]]; [left; exact D|right].
  assert (P1 : ps_prevent s1 = false).
  { assert (G := sok_transform env (fun a b : PS F eng => ps_prevent b = ps_prevent a) (fun _ => True)).
    rewrite <- P. replace s1 with (snd (transformTable env st xrows s)) by (rewrite Tr; reflexivity). apply G; auto; try congruence. }
  destruct (printableArea (ps_eng s1)) as [[[a1 a2] a3] bottom]. destruct D as [Sc E3].
  assert (R := run_frame env (callbacks env depth) (callbacks_frame0 env Hs depth) h (t_rows t) (fst (getXY (ps_eng s1))) (before ++ List.concat blocks) s1).
  rewrite (D_run _ _ _ _ _ _ _ _ _ _ _ _ _ Sc) in R. destruct R as [_ (ev2 & T2 & _)].
  assert (R3 : exists x, ps_trace s3 = ps_trace s2 ++ x).
  { rewrite E3. destruct (wrote_reset (snd (emit (SetY y') s2))) as (x & Tx & _). rewrite Tx. rewrite emit_eq. cbn [snd]. rewrite emitted_trace. eexists. rewrite <- app_assoc. reflexivity. }
  destruct R3 as [x R3]. exists ev2, (x ++ rest), before, blocks, s2, y'. split; [exact T2|]. split; [rewrite T, R3, <- app_assoc; reflexivity|]. split; [exact Sc|].
  intros i b p y. exact (fits env depth Hs h (t_rows t) rh _ _ bottom top before blocks s1 s2 y' Sc P1 Htop i b p y).
Qed.
