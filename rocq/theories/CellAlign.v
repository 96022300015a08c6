(** Vertical alignment of the text of cells (C86). *)
From Coq Require Import Lia QArith Lqa.
From Verif Require Import GoStr GoStrFacts Num Style Class Instr Engine Layout LayoutSpec LayoutFacts Grid Table Lines LinesSpec LinesLink WriteSpec WriteFacts WriteThms Proc EngineFacts DrawSpec DrawFacts ProcInv ProcFrame ProcView ProcSpec ProcThms ProcThms2 ProcThms3 CellSpec CellThms.
Local Open Scope nat_scope.

Section Width.
Context {eng : Engine NumQ}.
Variable mut : Styled NumQ -> Styles NumQ -> Styles NumQ.
Local Notation PS := (PS NumQ eng).
Variables (w w' : Q).
Hypothesis Hw : (w == w')%Q.
Lemma leb_width : forall x : Q, @leb NumQ w x = @leb NumQ w' x.
Proof. intros x. apply (Qleb_comp w w' Hw x x). reflexivity. Qed.
Lemma words_width_eq : forall st ws lines curr (s : PS), place_words (w : NumQ) st ws lines curr s = place_words (w' : NumQ) st ws lines curr s.
Proof.
  intros st. induction ws as [|x ws IH]; intros lines curr s; [reflexivity|]. cbn [place_words]. rewrite !sbind_query, leb_width.
  destruct (leb _ _); apply IH.
Qed.
Lemma pieces_width_eq : forall sty iss lines curr (s : PS), place_pieces mut (w : NumQ) sty iss lines curr s = place_pieces mut (w' : NumQ) sty iss lines curr s.
Proof.
  intros sty. induction iss as [|i iss IH]; intros lines curr s; [reflexivity|]. cbn [place_pieces]. rewrite !sbind_pair.
  destruct (read_piece mut sty i s) as [p s1]. cbn [fst snd]. destruct p as [|it|]; try apply IH. destruct (i_text it); [apply IH|].
  rewrite !sbind_font. unfold sbind. rewrite words_width_eq. destruct (place_words _ _ _ _ _ _) as [r s2]. apply IH.
Qed.
Lemma height_width_eq : forall iss sty (s : PS), textHeight mut iss (w : NumQ) sty s = textHeight mut iss (w' : NumQ) sty s.
Proof. intros iss sty s. unfold textHeight, textLines. rewrite !sbind_emit. unfold sbind. rewrite pieces_width_eq. reflexivity. Qed.
End Width.

Section Align.
Context {eng : Engine NumQ} (tw : Font NumQ -> bytes -> Q) (fh : Font NumQ -> Q) (font : est eng -> Font NumQ).
Local Notation PS := (PS NumQ eng).
Hypothesis W : writer eng tw fh font.
Hypothesis Hplace : places eng.
Hypothesis Hkeep : forall (v : NumQ) (e : est eng), currentPage (simple (SetX v) e) = currentPage e /\ currentPage (simple (SetY v) e) = currentPage e.
Variables (env : Env NumQ) (callback : cb -> M eng unit).

Lemma nosety_app : forall a b, no_sety (a ++ b) <-> no_sety a /\ no_sety b.
Proof. intros a b. unfold no_sety. split; [intros H; split; intros y Hy; apply (H y), in_or_app; auto|intros [A B] y Hy; apply in_app_or in Hy as [Hy|Hy]; [exact (A y Hy)|exact (B y Hy)]]. Qed.
Lemma nosety_fonts : forall l, only_fonts (F:=NumQ) l -> no_sety l.
Proof. intros l H y Hy. unfold only_fonts in H. rewrite Forall_forall in H. destruct (H _ Hy) as [f E]. discriminate E. Qed.
Lemma nosety_text : forall sty iss width x (s : PS) l, beqb (HAlign (SAlign sty)) ($"block") = false -> text_written env sty iss width x s l -> no_sety l.
Proof.
  intros sty iss width x s l Hb H. unfold text_written in H. rewrite Hb in H. destruct H as (lines & s1 & _ & ->). apply nosety_app. split.
  - intros y Hy. unfold start_cmds in Hy. destruct Hy as [E|[E|Hy]]; try discriminate E. apply in_map_iff in Hy as (f & E & _). discriminate E.
  - intros y Hy. apply in_flat_map in Hy as (line & _ & Hy). unfold line_cmds in Hy. apply in_app_or in Hy as [Hy|Hy]; [|apply in_app_or in Hy as [Hy|[E|[]]]; [|discriminate E]].
    + unfold line_start in Hy. repeat destruct (beqb _ _); try destruct Hy as [E|[]]; try discriminate; destruct Hy.
    + unfold plain_items in Hy. apply in_flat_map in Hy as (it & _ & [E|[E|[]]]); discriminate E.
Qed.
Lemma nosety_box : forall x0 y0 x1 y1 sty, no_sety (map Simple (box_cmds (F:=NumQ) x0 y0 x1 y1 sty)).
Proof.
  intros x0 y0 x1 y1 sty y Hy. apply in_map_iff in Hy as (c & E & Hc). injection E as ->. unfold box_cmds in Hc. cbv zeta in Hc.
  repeat match type of Hc with context [if ?b then _ else _] => destruct b end; cbn [app In] in Hc; intuition discriminate.
Qed.
Lemma no_children : forall va pa iss (s s' : PS), (forall i, In i iss -> text_only i = true) -> cell_boxes env callback va pa iss s = Ok tt s' -> s' = s.
Proof.
  intros va pa. induction iss as [|i iss IH]; intros s s' Hi H; [injection H as <-; reflexivity|]. cbn [cell_boxes] in H. apply bind_ok in H as ([] & s3 & H1 & H).
  rewrite (IH s3 s'); [|intros j Hj; apply Hi; right; exact Hj|exact H]. specialize (Hi i (or_introl eq_refl)). destruct i; try discriminate Hi; injection H1 as <-; reflexivity.
Qed.
Lemma q_middle : forall a b th y L h : Q, (a + (b - a - th) / 2 == y)%Q -> (y - a == b - ((y + (th + (L - 1) * h)) - (L - 1) * h))%Q.
Proof. intros a b th y L h H. rewrite <- H. field. Qed.
Lemma q_low : forall a b th y L h : Q, (a + (b - a - th) == y)%Q -> ((y + (th + (L - 1) * h)) - (L - 1) * h == b)%Q.
Proof. intros a b th y L h H. rewrite <- H. ring. Qed.

Lemma cell_aligned : forall h pa (x : tcell NumQ) (s s' : PS),
  let sty := c_sty x in
  beqb (HAlign (SAlign sty)) ($"block") = false -> c_iss x <> [] -> (forall i, In i (c_iss x) -> text_only i = true) ->
  (0 <= LineSpacing (SDim sty) * h)%Q ->
  fh (SFont sty) = h -> (forall n f, In f (text_fonts (e_mut env) false n sty (c_iss x)) -> fh f = h) ->
  renderCell env callback pa x s = Ok tt s' ->
  exists before y after, wrote s s' (before ++ Simple (SetY (F:=NumQ) y) :: after) /\ no_sety before /\ no_sety after /\
    let upper := (pa_y0 pa + QTop (Padding (SBox sty)))%Q in
    let lower := (pa_y1 pa - QBottom (Padding (SBox sty)))%Q in
    let ending := (snd (getXY (ps_eng s')) - (LineSpacing (SDim sty) - 1) * h)%Q in
    if beqb (VAlign (SAlign sty)) ($"middle") then ((0 <= y)%Q -> y - upper == lower - ending)%Q
    else if beqb (VAlign (SAlign sty)) ($"bottom") then ((0 <= y)%Q -> ending == lower)%Q
    else y = upper.
Proof.
  intros h pa x s s' sty Hb Hn Hi Hls Hf Hfs H. unfold renderCell in H. cbv zeta in H. fold sty in H.
  apply bind_ok in H as ([] & s1 & H1 & H). apply lift_ok in H1. rewrite drawBox_run in H1. apply pair_equal_spec in H1 as [_ <-].
  apply bind_ok in H as ([] & s2 & H2 & H). apply bind_ok in H as ([] & s3 & H3 & H). apply wrote_lift_emit in H3 as [E3 W3]. apply no_children in H; [|exact Hi]. subst s'.
  destruct (c_iss x) as [|i iss] eqn:Ei; [congruence|]. rewrite <- Ei in *.
  assert (Hp : page_stable (eng:=eng)) by exact (writer_stable _ _ _ W).
  apply bind_ok in H2 as (th & sm & H1 & H2). apply lift_ok in H1.
  destruct (height_fonts env Hplace Hp _ _ _ _ _ _ H1) as (ms & Wm & Om & Xm & Pm).
  apply bind_ok in H2 as ([] & sa & Ha & H2). apply lift_dropped in Ha as [Ea Wa].
  apply bind_ok in H2 as ([] & sb & Hb2 & H2). apply wrote_lift_emit in Hb2 as [Eb Wb].
  destruct (fnc_written env callback Hplace Hp _ _ _ _ _ H2) as (text & Wt & Tw).
  set (pad := Padding (SBox sty)) in *. set (y := dropped (VAlign (SAlign sty)) (pa_y0 (with_padding pad pa)) (sub (pa_height (with_padding pad pa)) th)) in *.
  exists (map Simple (box_cmds (pa_x0 pa) (pa_y0 pa) (pa_x1 pa) (pa_y1 pa) sty) ++ ms), y, ([Simple (SetX (pa_x0 (with_padding pad pa)))] ++ text ++ [Simple (SetX (pa_x0 (with_padding pad pa)))]).
  split.
  { rewrite <- app_assoc. eapply wrote_app; [apply wrote_emits|]. eapply wrote_app; [exact Wm|]. eapply wrote_cons; [exact Wa|]. eapply wrote_app; [exact Wb|]. eapply wrote_app; [exact Wt|exact W3]. }
  split; [apply nosety_app; split; [apply nosety_box|apply nosety_fonts; exact Om]|].
  split; [apply nosety_app; split; [intros z [E|[]]; discriminate E|apply nosety_app; split; [exact (nosety_text _ _ _ _ _ _ Hb Tw)|intros z [E|[]]; discriminate E]]|].
  assert (Ey : (0 <= y)%Q -> snd (getXY (ps_eng sb)) = y) by (intros K; rewrite Eb, emitted_eng, (L_x_y _ Hplace), Ea, emitted_eng; apply (L_y _ Hplace); apply Qle_bool_iff; exact K).
  assert (Pb : currentPage (ps_eng (emits (box_cmds (pa_x0 pa) (pa_y0 pa) (pa_x1 pa) (pa_y1 pa) sty) s)) = currentPage (ps_eng sb)).
  { rewrite Eb, emitted_eng, (proj1 (Hkeep _ _)), Ea, emitted_eng, (proj2 (Hkeep _ _)), Pm. reflexivity. }
  assert (Hh := written_height (e_mut env) (e_hyph env) tw fh font W callback h (c_iss x) _ sty sb _ s2 Hls ltac:(rewrite Hb; split; [exact Hf|apply Hfs]) Pb H2).
  unfold textHeightFnc in Hh. rewrite Hb in Hh.
  assert (Ew : (sub (sub (pa_width pa) (QLeft pad)) (QRight pad) == pa_width (with_padding pad pa))%Q) by (unfold pa_width, with_padding; cbn; ring).
  rewrite (height_width_eq (e_mut env) _ _ Ew), H1 in Hh. cbn [fst] in Hh.
  assert (E : snd (getXY (ps_eng s3)) = snd (getXY (ps_eng s2))) by (rewrite E3, emitted_eng; apply (L_x_y _ Hplace)).
  rewrite E. cbv zeta. unfold dropped in y.
  destruct (beqb (VAlign (SAlign sty)) ($"middle")); [|destruct (beqb (VAlign (SAlign sty)) ($"bottom"))].
  - intros K. rewrite Hh, (Ey K). apply q_middle. reflexivity.
  - intros K. rewrite Hh, (Ey K). apply q_low with (a := pa_y0 (with_padding pad pa)). reflexivity.
  - reflexivity.
Qed.
End Align.
