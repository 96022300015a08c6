(** Proofs about fonts of texts and about text boxes (C56, C63, C64). *)
From Coq Require Import Lia Permutation QArith.
From Verif Require Import GoStr GoStrFacts Num Style Class Instr Engine Layout LayoutSpec LayoutFacts Grid Table Lines LinesSpec LinesLink WriteSpec WriteFacts Proc EngineFacts DrawSpec DrawFacts ProcInv ProcFrame ProcView ProcSpec ProcThms ProcThms2.
Local Open Scope nat_scope.

Section Font.
Context {F : Num} (env : Env F) {eng : Engine F}.
Local Notation PS := (PS F eng).
Local Notation mut := (e_mut env).
Local Notation hyph := (e_hyph env).

Lemma sbind_to : forall A B (m : St eng A) (k : A -> St eng B) s a s', m s = (a, s') -> sbind m k s = k a s'.
Proof. intros A B m k s a s' H. unfold sbind. rewrite H. reflexivity. Qed.
Lemma words_inked_h : forall width st ws lines curr (s : PS), ws <> [] ->
  exists lines' curr' items' it, place_words_h hyph width st ws lines curr s = ((lines', curr'), s) /\ all_items lines' curr' = items' ++ [it] /\ fnt it = SFont st.
Proof.
  intros width st. induction ws as [|w ws IH]; intros lines curr s Hn; [contradiction|]. cbn [place_words_h]. rewrite !sbind_query.
  assert (Fin : forall l c (it : textItem F) a b d, fnt it = SFont st -> exists lines' curr' items' it',
     place_words_h hyph width st ws l (mkLine (l_items c ++ [it]) a b d) s = ((lines', curr'), s) /\ all_items lines' curr' = items' ++ [it'] /\ fnt it' = SFont st).
  { intros l c it a b d Hi. destruct ws as [|w' ws']; [|apply IH; discriminate]. eexists _, _, _, it. split; [reflexivity|]. unfold all_items. cbn [l_items]. rewrite app_assoc. split; [reflexivity|exact Hi]. }
  destruct (leb width _).
  - unfold sbind at 1. unfold sbind at 1. rewrite tryHyphenate_eq. destruct (LinesFacts.cut hyph width w _ _) as [k|]; cbn [option_map].
    + rewrite !sbind_query. cbv beta iota delta [sret]. apply Fin. reflexivity.
    + cbv beta iota delta [sret]. apply Fin. reflexivity.
  - rewrite sbind_ret. apply Fin. reflexivity.
Qed.
Lemma piece_read : forall sty is (s : PS), exists p, read_piece mut sty is s = (p, s).
Proof. intros sty is s. destruct is; try (eexists; reflexivity); cbn [read_piece]; unfold sbind; rewrite norm_eq; eexists; reflexivity. Qed.
Lemma inked_break : forall (y : Styles F) lines curr (s : PS), inked y (all_items lines curr) s -> inked y (all_items (lines ++ [curr]) empty_line) s.
Proof. intros y lines curr s H. unfold all_items. rewrite flat_map_app. cbn [flat_map l_items empty_line]. rewrite !app_nil_r. exact H. Qed.
Lemma mark_items : forall lines : list (textLine F), flat_map l_items (mark_last lines) = flat_map l_items lines.
Proof.
  intros lines. unfold mark_last. destruct (rev lines) as [|l ls] eqn:E; [rewrite <- (rev_involutive lines), E; reflexivity|].
  rewrite <- (rev_involutive lines), E. cbn [rev]. rewrite !flat_map_app. reflexivity.
Qed.
Lemma font_inked : forall (y : Styles F) st items it (s : PS) f, ps_sty s = with_font f y -> fnt it = SFont st -> inked y (items ++ [it]) (font_changed (SFont st) s).
Proof. intros y st items it s f E Hi. apply inked_snoc. unfold font_changed. rewrite emitted_sty. cbn [set_sty ps_sty]. rewrite E, Hi. reflexivity. Qed.
Lemma pieces_inked : forall y width sty iss lines curr (s : PS), inked y (all_items lines curr) s ->
  let '((lines', curr'), s') := place_pieces mut width sty iss lines curr s in inked y (all_items lines' curr') s'.
Proof.
  intros y width sty. induction iss as [|is iss IH]; intros lines curr s H; cbn [place_pieces]; [exact H|].
  destruct (piece_read sty is s) as [p E]. rewrite (sbind_to _ _ _ _ _ _ _ E). destruct p as [|it|]; [apply IH; apply inked_break; exact H| |apply IH; exact H].
  destruct (i_text it) as [|c t] eqn:Et; [apply IH; exact H|]. rewrite sbind_font.
  destruct (words_inked width (i_sty it) (Lines.words (c :: t)) lines curr (font_changed (SFont (i_sty it)) s)) as (l' & c' & its & i' & Ew & Ei & Ef); [apply split_byte_nonempty|].
  rewrite (sbind_to _ _ _ _ _ _ _ Ew). apply IH. cbn [fst snd]. rewrite Ei. exact (font_inked _ _ _ _ _ _ H Ef).
Qed.
Lemma pieces_inked_h : forall y width sty iss lines curr (s : PS), inked y (all_items lines curr) s ->
  let '((lines', curr'), s') := place_pieces_h mut hyph width sty iss lines curr s in inked y (all_items lines' curr') s'.
Proof.
  intros y width sty. induction iss as [|is iss IH]; intros lines curr s H; cbn [place_pieces_h]; [exact H|].
  destruct (piece_read sty is s) as [p E]. rewrite (sbind_to _ _ _ _ _ _ _ E). destruct p as [|it|]; [| |apply IH; exact H].
  - apply IH. unfold all_items in *. rewrite flat_map_app, mark_items. cbn [flat_map l_items empty_line]. rewrite !app_nil_r. exact H.
  - rewrite sbind_font.
    destruct (words_inked_h width (i_sty it) (Lines.words (i_text it)) lines curr (font_changed (SFont (i_sty it)) s)) as (l' & c' & its & i' & Ew & Ei & Ef); [apply split_byte_nonempty|].
    rewrite (sbind_to _ _ _ _ _ _ _ Ew). apply IH. cbn [fst snd]. rewrite Ei. exact (font_inked _ _ _ _ _ _ H Ef).
Qed.
Lemma start_inked : forall (s : PS), inked (ps_sty s) (all_items [] empty_line) s.
Proof. intros s. unfold inked. cbn. symmetry. apply with_font_same. Qed.
Lemma lines_inked : forall width sty iss (s : PS), let '(lines, s') := textLines mut iss width sty s in inked (ps_sty s) (flat_map l_items lines) s'.
Proof.
  intros width sty iss s. unfold textLines. assert (G := pieces_inked (ps_sty s) width sty iss [] empty_line s (start_inked s)). unfold sbind.
  destruct (place_pieces mut width sty iss [] empty_line s) as [[lines curr] s']. cbn [sret]. unfold all_items in G. destruct (l_items curr) eqn:E; [rewrite app_nil_r in G; exact G|].
  rewrite flat_map_app. cbn [flat_map]. rewrite E, app_nil_r. exact G.
Qed.
Lemma lines_inked_h : forall width sty iss (s : PS), let '(lines, s') := textLinesHyphenated mut hyph iss width sty s in inked (ps_sty s) (flat_map l_items lines) s'.
Proof.
  intros width sty iss s. unfold textLinesHyphenated. assert (G := pieces_inked_h (ps_sty s) width sty iss [] empty_line s (start_inked s)). unfold sbind.
  destruct (place_pieces_h mut hyph width sty iss [] empty_line s) as [[lines curr] s']. cbn [sret]. unfold all_items in G. destruct (l_items curr) eqn:E; [rewrite app_nil_r in G; exact G|].
  rewrite flat_map_app. cbn [flat_map l_items]. rewrite app_nil_r. exact G.
Qed.

Section Write.
Variable callback : cb -> M eng unit.
Hypothesis Hcall : forall t (s s' : PS), write_text callback t s = Ok tt s' -> ps_sty s' = ps_sty s.
Definition inks (items : list (textItem F)) (s s' : PS) : Prop := inked (ps_sty s) items s'.
Lemma inks_nil : forall s s', ps_sty s' = ps_sty s -> inks [] s s'.
Proof. intros s s' H. unfold inks, inked, last_font. cbn. rewrite H. symmetry. apply with_font_same. Qed.
Lemma last_app : forall A (l1 l2 : list A) d, List.last (l1 ++ l2) d = List.last l2 (List.last l1 d).
Proof.
  intros A l1 l2 d. destruct (rev l2) as [|a r] eqn:E; rewrite <- (rev_involutive l2), E; cbn [rev]; [rewrite app_nil_r; reflexivity|].
  rewrite app_assoc, !last_last. reflexivity.
Qed.
Lemma inks_app : forall i1 i2 s s1 s', inks i1 s s1 -> inks i2 s1 s' -> inks (i1 ++ i2) s s'.
Proof.
  intros i1 i2 s s1 s' H1 H2. unfold inks, inked, last_font in *. rewrite H2, H1, map_app, last_app. reflexivity.
Qed.
Lemma inks_emit : forall c s, inks [] s (emitted c s).
Proof. intros. apply inks_nil. apply emitted_sty. Qed.
Lemma inks_font : forall it s, inks [it] s (font_changed (SFont (i_sty it)) s).
Proof. intros it s. unfold inks, inked, font_changed. rewrite emitted_sty. reflexivity. Qed.
Lemma inks_font_eq : forall it s s', lift (changeFont (SFont (i_sty it))) s = Ok tt s' -> inks [it] s s'.
Proof. intros it s s' H. apply lift_ok in H. rewrite changeFont_eq in H. injection H as <-. apply inks_font. Qed.
Lemma inks_emit_eq : forall c (s s' : PS), lift (emit c) s = Ok tt s' -> inks [] s s'.
Proof. intros c s s' H. apply lift_ok in H. rewrite emit_eq in H. injection H as <-. apply inks_emit. Qed.
Lemma items_inked : forall items s s', write_items callback items s = Ok tt s' -> inks items s s'.
Proof.
  induction items as [|it items IH]; intros s s' H; cbn [write_items] in H; [injection H as <-; apply inks_nil; reflexivity|].
  apply bind_ok in H as ([] & s1 & H1 & H). apply bind_ok in H as ([] & s2 & H2 & H).
  change (it :: items) with ([it] ++ [] ++ items). apply (inks_app _ _ _ s1); [exact (inks_font_eq _ _ _ H1)|]. apply (inks_app _ _ _ s2); [|exact (IH _ _ H)]. apply inks_nil. exact (Hcall _ _ _ H2).
Qed.
Lemma spaced_inked : forall gap items s s', write_spaced callback gap items s = Ok tt s' -> inks items s s'.
Proof.
  intros gap. induction items as [|it items IH]; intros s s' H; cbn [write_spaced] in H; [injection H as <-; apply inks_nil; reflexivity|].
  apply bind_ok in H as ([] & s1 & H1 & H). apply bind_ok in H as ([] & s2 & H2 & H). apply bind_ok in H as (xy & s3 & H3 & H). apply lift_ok in H3. injection H3 as _ <-.
  apply bind_ok in H as ([] & s4 & H4 & H).
  change (it :: items) with ([it] ++ [] ++ [] ++ items). apply (inks_app _ _ _ s1); [exact (inks_font_eq _ _ _ H1)|]. apply (inks_app _ _ _ s2); [apply inks_nil; exact (Hcall _ _ _ H2)|].
  apply (inks_app _ _ _ s4); [exact (inks_emit_eq _ _ _ H4)|exact (IH _ _ H)].
Qed.
Lemma wlines_inked : forall width x sty lines s s', write_lines callback width x sty lines s = Ok tt s' -> inks (flat_map l_items lines) s s'.
Proof.
  intros width x sty. induction lines as [|l lines IH]; intros s s' H; cbn [write_lines] in H; [injection H as <-; apply inks_nil; reflexivity|].
  apply bind_ok in H as ([] & s1 & H1 & H). apply bind_ok in H as ([] & s2 & H2 & H). apply bind_ok in H as ([] & s3 & H3 & H).
  cbn [flat_map]. change (l_items l ++ flat_map l_items lines) with ([] ++ l_items l ++ [] ++ flat_map l_items lines).
  apply (inks_app _ _ _ s1).
  { unfold align_line in H1. destruct (beqb _ _); [exact (inks_emit_eq _ _ _ H1)|]. destruct (beqb _ _); [exact (inks_emit_eq _ _ _ H1)|]. destruct (beqb _ _); [exact (inks_emit_eq _ _ _ H1)|].
    apply lift_ok in H1. injection H1 as <-. apply inks_nil. reflexivity. }
  apply (inks_app _ _ _ s2); [exact (items_inked _ _ _ H2)|]. apply (inks_app _ _ _ s3); [exact (inks_emit_eq _ _ _ H3)|exact (IH _ _ H)].
Qed.
Lemma wlines_inked_h : forall width x sty lines s s', write_lines_h callback width x sty lines s = Ok tt s' -> inks (flat_map l_items lines) s s'.
Proof.
  intros width x sty. induction lines as [|l lines IH]; intros s s' H; cbn [write_lines_h] in H; [injection H as <-; apply inks_nil; reflexivity|].
  cbv zeta in H. apply bind_ok in H as ([] & s1 & H1 & H). apply bind_ok in H as ([] & s2 & H2 & H). apply bind_ok in H as ([] & s3 & H3 & H).
  cbn [flat_map]. change (l_items l ++ flat_map l_items lines) with ([] ++ l_items l ++ [] ++ flat_map l_items lines).
  apply (inks_app _ _ _ s1); [exact (inks_emit_eq _ _ _ H1)|].
  apply (inks_app _ _ _ s2). { destruct (_ || _)%bool; [exact (items_inked _ _ _ H2)|exact (spaced_inked _ _ _ _ H2)]. } apply (inks_app _ _ _ s3); [exact (inks_emit_eq _ _ _ H3)|exact (IH _ _ H)].
Qed.
Lemma last_idem : forall A (l : list A) d, List.last l (List.last l d) = List.last l d.
Proof. intros A l d. destruct (rev l) as [|a r] eqn:E; rewrite <- (rev_involutive l), E; cbn [rev]; [reflexivity|]. rewrite !last_last. reflexivity. Qed.
Lemma inked_again : forall items s s1 s', inks items s s1 -> inks items s1 s' -> ps_sty s' = ps_sty s1.
Proof. intros items s s1 s' H1 H2. unfold inks, inked, last_font in *. rewrite H2, H1. cbn [SFont with_font]. rewrite last_idem. reflexivity. Qed.
Lemma fonts_changed_sty : forall fs (s : PS), ps_sty (fonts_changed fs s) = with_font (last_font fs (SFont (ps_sty s))) (ps_sty s).
Proof.
  unfold last_font. induction fs as [|f fs IH] using rev_ind; intros s; [symmetry; apply with_font_same|].
  unfold fonts_changed. rewrite fold_left_app. cbn [fold_left]. fold (fonts_changed fs s). unfold font_changed. rewrite emitted_sty. cbn [set_sty ps_sty]. rewrite IH, last_last. reflexivity.
Qed.
Hypothesis Hpage : page_stable (eng:=eng).
Definition is_block (sty : Styles F) : bool := beqb (HAlign (SAlign sty)) ($"block").
Lemma written_sty : forall iss width sty (s s' : PS), writeTextFnc callback mut hyph sty iss width sty s = Ok tt s' ->
  ps_sty s' = with_font (last_font (text_fonts mut (is_block sty) (currentPage (ps_eng (text_state sty s))) sty iss) (SFont (ps_sty s))) (ps_sty s).
Proof.
  intros iss width sty s s' H. unfold writeTextFnc, is_block in *. assert (T : ps_sty (text_state sty s) = ps_sty s) by (rewrite text_state_eq, !emitted_sty; reflexivity).
  destruct (beqb (HAlign (SAlign sty)) ($"block")).
  - unfold writeTextHyphenated in H. apply bind_ok in H as ([] & s1 & H1 & H). apply lift_ok in H1. rewrite emit_eq in H1. injection H1 as <-.
    apply bind_ok in H as ([] & s1 & H1 & H). apply lift_ok in H1. unfold set_text_color in H1. rewrite emit_eq in H1. injection H1 as <-. rewrite <- text_state_eq in H.
    apply bind_ok in H as (lines & s2 & H2 & H). apply lift_ok in H2. apply bind_ok in H as (xy & s3 & H3 & H). apply lift_ok in H3. injection H3 as <- <-.
    assert (L := lines_inked_h width sty iss (text_state sty s)). rewrite H2 in L. rewrite (inked_again _ _ _ _ L (wlines_inked_h _ _ _ _ _ _ H)).
    destruct (textLinesHyphenated_rules mut hyph Hpage iss width sty (text_state sty s)) as (ls & gs & E & _). rewrite H2 in E. injection E as _ ->. rewrite fonts_changed_sty, T. reflexivity.
  - unfold Lines.writeText in H. apply bind_ok in H as ([] & s1 & H1 & H). apply lift_ok in H1. rewrite emit_eq in H1. injection H1 as <-.
    apply bind_ok in H as ([] & s1 & H1 & H). apply lift_ok in H1. unfold set_text_color in H1. rewrite emit_eq in H1. injection H1 as <-. rewrite <- text_state_eq in H.
    apply bind_ok in H as (lines & s2 & H2 & H). apply lift_ok in H2. apply bind_ok in H as (xy & s3 & H3 & H). apply lift_ok in H3. injection H3 as <- <-.
    assert (L := lines_inked width sty iss (text_state sty s)). rewrite H2 in L. rewrite (inked_again _ _ _ _ L (wlines_inked _ _ _ _ _ _ H)).
    destruct (textLines_rules mut Hpage iss width sty (text_state sty s)) as (ls & gs & E & _). rewrite H2 in E. injection E as _ ->. rewrite fonts_changed_sty, T. reflexivity.
Qed.
Lemma reset_sty : forall s : PS, ps_sty (snd (resetStyles s)) = ps_sty s.
Proof.
  intros s. unfold resetStyles, set_text_color. rewrite sbind_pair. cbn [get fst snd]. rewrite sbind_emit. rewrite sbind_pair. cbn [get fst snd]. rewrite emit_eq. cbn [snd]. rewrite !emitted_sty. reflexivity.
Qed.
Lemma page_now_eq : forall s : PS, exists pg, page_now s = (pg, s).
Proof. intros s. unfold page_now. rewrite sbind_query. destruct (printableArea (ps_eng s)) as [[[? ?] ?] ?]. eexists. reflexivity. Qed.
Lemma text_leaves_font : forall st iss (s s' : PS), iss <> [] -> renderText env callback st iss s = Ok tt s' ->
  let sty := mut st (ps_sty s) in
  ps_sty s' = with_font (last_font (text_fonts mut (is_block sty) (currentPage (ps_eng (text_state sty s))) sty iss) (SFont (ps_sty s))) (ps_sty s).
Proof.
  intros st iss s s' Hn H sty. unfold renderText in H. destruct iss as [|i iss]; [contradiction|].
  apply bind_ok in H as (y & s1 & H1 & H). apply lift_ok in H1. injection H1 as <- <-. apply bind_ok in H as (pg & s1 & H1 & H). apply lift_ok in H1.
  destruct (page_now_eq s) as [pg' E]. rewrite E in H1. injection H1 as <- <-. apply bind_ok in H as ([] & s2 & H2 & H). rewrite (lift_reset _ _ H), reset_sty. exact (written_sty _ _ _ _ _ H2).
Qed.
End Write.
End Font.

(** ** Boxes *)
Section Box.
Context {F : Num} (env : Env F) {eng : Engine F} (callback : cb -> M eng unit).
Local Notation PS := (PS F eng).
Local Notation mut := (e_mut env).
Local Notation hyph := (e_hyph env).
Lemma height_measured : forall sty iss width (s : PS) h s1, box_text_height env iss width sty s = (h, s1) -> box_height env sty iss width s h s1.
Proof.
  intros sty iss width s h s1 H. unfold box_text_height in H. unfold box_height. destruct (leb _ _); [|injection H as <- <-; split; reflexivity].
  destruct iss; [injection H as <- <-; split; reflexivity|exact H].
Qed.
Lemma wrote_emits : forall l (s : PS), wrote s (emits l s) (map Simple l).
Proof. intros l s. exists (plain l). split; [apply emits_trace|apply map_ev_plain]. Qed.
Lemma wrote_lift_emit : forall c (s s' : PS), lift (emit c) s = Ok tt s' -> s' = emitted c s /\ wrote s s' [Simple c].
Proof. intros c s s' H. apply lift_ok in H. rewrite emit_eq in H. injection H as <-. split; [reflexivity|apply wrote_emit]. Qed.
Lemma wrote_reset : forall s : PS, wrote s (snd (resetStyles s)) (reset_cmds s).
Proof.
  intros s. unfold resetStyles, set_text_color. rewrite sbind_pair. cbn [get fst snd]. rewrite sbind_emit. rewrite sbind_pair. cbn [get fst snd]. rewrite emit_eq. cbn [snd].
  unfold reset_cmds. rewrite emitted_sty. refine (wrote_cons _ _ _ _ _ (wrote_emit _ _) (wrote_emit _ _)).
Qed.
Lemma reset_eng : forall s : PS, ps_eng (snd (resetStyles s)) =
  (let c := TextColor (SColor (ps_sty s)) in simple (SetTextColor (R c) (G c) (B c)) (simple (ChangeFont (SFont (ps_sty s))) (ps_eng s))).
Proof.
  intros s. unfold resetStyles, set_text_color. rewrite sbind_pair. cbn [get fst snd]. rewrite sbind_emit. rewrite sbind_pair. cbn [get fst snd]. rewrite emit_eq. cbn [snd].
  rewrite !emitted_eng, emitted_sty. reflexivity.
Qed.
Hypothesis Hplace : places eng.
Hypothesis Hpage : page_stable (eng:=eng).
Lemma fonts_xy : forall fs (s : PS), getXY (ps_eng (fonts_changed fs s)) = getXY (ps_eng s).
Proof. induction fs as [|f fs IH]; intros s; [reflexivity|]. cbn [fonts_changed fold_left]. unfold fonts_changed in IH. rewrite IH, font_eng. apply (L_font _ Hplace). Qed.
Lemma text_state_xy : forall sty (s : PS), getXY (ps_eng (text_state sty s)) = getXY (ps_eng s).
Proof. intros sty s. rewrite text_state_eq, !emitted_eng, (L_color _ Hplace), (L_font _ Hplace). reflexivity. Qed.
Lemma fnc_written : forall sty iss width (s s' : PS), writeTextFnc callback mut hyph sty iss width sty s = Ok tt s' ->
  exists cmds, wrote s s' cmds /\ text_written env sty iss width (fst (getXY (ps_eng s))) s cmds.
Proof.
  intros sty iss width s s' H. unfold writeTextFnc in H. unfold text_written. destruct (beqb (HAlign (SAlign sty)) ($"block")).
  - destruct (writeTextHyphenated_wrote callback mut Hpage hyph _ _ _ _ _ H) as (lines & s1 & css & E & C & W). eexists. split; [exact W|]. exists lines, s1, css. split; [exact E|].
    destruct (textLinesHyphenated_rules mut hyph Hpage iss width sty (text_state sty s)) as (ls & gs & E' & _). rewrite E in E'. injection E' as _ E'. rewrite E', fonts_xy, text_state_xy in C. split; [exact C|reflexivity].
  - destruct (writeText_wrote callback mut Hpage _ _ _ _ _ H) as (lines & s1 & E & W). eexists. split; [exact W|]. exists lines, s1. split; [exact E|].
    destruct (textLines_rules mut Hpage iss width sty (text_state sty s)) as (ls & gs & E' & _). rewrite E in E'. injection E' as _ E'. rewrite E', fonts_xy, text_state_xy. reflexivity.
Qed.
Lemma box_framed : forall st iss pa (s s' : PS), renderTextBox env callback st iss pa s = Ok tt s' ->
  let sty := mut st (ps_sty s) in
  let pad := Padding (SBox sty) in
  let width := sub (sub (effective_width pa (Width (SDim sty))) (QLeft pad)) (QRight pad) in
  exists h s1 s2 frame (s3 : PS) text,
    box_height env sty iss width s h s1 /\ box_break callback h s1 s2 /\
    let x0 := add (fst (getXY (ps_eng s2))) (OffsetX (SDim sty)) in
    let y0 := add (snd (getXY (ps_eng s2))) (OffsetY (SDim sty)) in
    let x1 := add (add (add x0 width) (QLeft pad)) (QRight pad) in
    let y1 := add (add (add y0 h) (QTop pad)) (QBottom pad) in
    draws_box x0 y0 x1 y1 sty frame /\
    (from_edge (add x0 (QLeft pad)) -> fst (getXY (ps_eng s3)) = add x0 (QLeft pad)) /\
    (from_edge (add y0 (QTop pad)) -> snd (getXY (ps_eng s3)) = add y0 (QTop pad)) /\
    (if match iss with [] => true | _ => false end then text = [] else text_written env sty iss width (fst (getXY (ps_eng s3))) s3 text) /\
    wrote s2 s' (frame ++ [Simple (SetY (add y0 (QTop pad))); Simple (SetX (add x0 (QLeft pad)))] ++ text ++ [Simple (SetY y1)] ++ reset_cmds s') /\
    (from_edge y1 -> snd (getXY (ps_eng s')) = y1).
Proof.
  intros st iss pa s s' H sty pad width. unfold renderTextBox in H. cbv zeta in H.
  apply bind_ok in H as (y & sa & H1 & H). apply lift_ok in H1. injection H1 as <- <-.
  apply bind_ok in H as (h & s1 & H1 & H). apply lift_ok in H1. apply height_measured in H1.
  apply bind_ok in H as (xy & sa & H2 & H). apply lift_ok in H2. injection H2 as <- <-.
  apply bind_ok in H as (m & sa & H2 & H). apply lift_ok in H2. injection H2 as <- <-.
  apply bind_ok in H as (ph & sa & H2 & H). apply lift_ok in H2. injection H2 as <- <-.
  apply bind_ok in H as (pv & sa & H2 & H). apply lift_ok in H2. injection H2 as <- <-.
  apply bind_ok in H as ([px py] & s2 & H2 & H).
  assert (B : box_break callback h s1 s2 /\ (px, py) = getXY (ps_eng s2)).
  { unfold box_break. destruct (margins (ps_eng s1)) as [[[? ?] ?] bm]. destruct (negb (ps_prevent s1) && _)%bool.
    - apply bind_ok in H2 as ([] & sb & H2 & H3). apply lift_ok in H3. injection H3 as E <-. split; [exact H2|symmetry; exact E].
    - injection H2 as E <-. split; [reflexivity|symmetry; exact E]. }
  destruct B as [B E].
  apply bind_ok in H as ([] & sa & H3 & H). apply lift_ok in H3. rewrite drawBox_run in H3. injection H3 as <-.
  apply bind_ok in H as ([] & sb & H4 & H). apply wrote_lift_emit in H4 as [Eb W4].
  apply bind_ok in H as ([] & s3 & H5 & H). apply wrote_lift_emit in H5 as [E3 W5].
  apply bind_ok in H as ([] & s4 & H6 & H). apply bind_ok in H as ([] & s5 & H7 & H). apply wrote_lift_emit in H7 as [E5 W7]. apply lift_reset in H.
  assert (X3 : from_edge (add (add px (OffsetX (SDim sty))) (QLeft pad)) -> fst (getXY (ps_eng s3)) = add (add px (OffsetX (SDim sty))) (QLeft pad)).
  { rewrite E3, emitted_eng. apply (L_x _ Hplace). }
  assert (Y3 : from_edge (add (add py (OffsetY (SDim sty))) (QTop pad)) -> snd (getXY (ps_eng s3)) = add (add py (OffsetY (SDim sty))) (QTop pad)).
  { rewrite E3, emitted_eng, (L_x_y _ Hplace), Eb, emitted_eng. apply (L_y _ Hplace). }
  assert (T : exists text, wrote s3 s4 text /\ (if match iss with [] => true | _ => false end then text = [] else text_written env sty iss width (fst (getXY (ps_eng s3))) s3 text)).
  { destruct iss as [|i iss]; [injection H6 as <-; exists []; split; [apply wrote_nil|reflexivity]|]. destruct (fnc_written _ _ _ _ _ H6) as (text & W & Tw). exists text. split; [exact W|exact Tw]. }
  destruct T as (text & W6 & Tw).
  exists h, s1, s2, (map Simple (box_cmds (add px (OffsetX (SDim sty))) (add py (OffsetY (SDim sty)))
     (add (add (add (add px (OffsetX (SDim sty))) width) (QLeft pad)) (QRight pad)) (add (add (add (add py (OffsetY (SDim sty))) h) (QTop pad)) (QBottom pad)) sty)), s3, text.
  rewrite <- E. cbv zeta. cbn [fst snd]. split; [exact H1|]. split; [exact B|]. split; [intros p Hp; apply box_paint; exact Hp|]. split; [exact X3|]. split; [exact Y3|]. split; [exact Tw|]. split.
  - eapply wrote_app; [apply wrote_emits|]. cbn [app]. eapply wrote_cons; [exact W4|]. eapply wrote_cons; [exact W5|]. eapply wrote_app; [exact W6|]. eapply wrote_cons; [exact W7|].
    rewrite H. unfold reset_cmds. rewrite !reset_sty. apply wrote_reset.
  - rewrite H, reset_eng. cbv zeta. rewrite (L_color _ Hplace), (L_font _ Hplace), E5, emitted_eng. apply (L_y _ Hplace).
Qed.
End Box.

Section Bottom.
Variables (env : Env NumQ) (eng : Engine NumQ) (callback : cb -> M eng unit).
Local Notation PS := (PS NumQ eng).
Lemma height_prevent : forall iss width sty (s : PS), ps_prevent (snd (box_text_height env iss width sty s)) = ps_prevent s.
Proof.
  intros iss width sty s. apply (sok_bth env (fun a b => ps_prevent b = ps_prevent a) (fun _ => True)); auto; try congruence.
Qed.
Lemma box_height_prevent : forall sty iss width (s s1 : PS) h, box_height env sty iss width s h s1 -> ps_prevent s1 = ps_prevent s.
Proof.
  intros sty iss width s s1 h H. assert (G := height_prevent iss width sty s). unfold box_text_height in G. unfold box_height in H.
  destruct (leb _ _); [|destruct H as [_ ->]; reflexivity]. destruct iss; [destruct H as [_ ->]; reflexivity|]. unfold p_textHeightFnc in G. rewrite H in G. exact G.
Qed.
Lemma q_bottom : forall y h o t b B : Q, (y + h < B -> y + o + h + t + b < B + o + t + b)%Q.
Proof. intros y h o t b B H. assert (E : (y + o + h + t + b == (y + h) + (o + t + b))%Q) by ring. assert (E2 : (B + o + t + b == B + (o + t + b))%Q) by ring. rewrite E, E2. apply Qplus_lt_le_compat; [exact H|apply Qle_refl]. Qed.
Lemma box_bottom : places eng -> page_stable (eng:=eng) -> forall top,
  (forall s1 s2 : PS, add_page callback s1 = Ok tt s2 -> snd (getXY (ps_eng s2)) = top) ->
  forall st iss pa (s s' : PS), ps_prevent s = false -> renderTextBox env callback st iss pa s = Ok tt s' ->
  let sty := e_mut env st (ps_sty s) in
  let pad := Padding (SBox sty) in
  exists h s1 s2 frame rest x0 y0 x1 y1,
    box_height env sty iss (sub (sub (effective_width pa (Width (SDim sty))) (QLeft pad)) (QRight pad)) s h s1 /\
    wrote s2 s' (frame ++ rest) /\ draws_box x0 y0 x1 y1 sty frame /\
    (let '(_, _, _, m) := margins (ps_eng s1) in
     let bottom := sub (pageHeight (ps_eng s1)) m in
     ((top + h : Q) < bottom -> (y1 : Q) < bottom + OffsetY (SDim sty) + QTop pad + QBottom pad)%Q).
Proof.
  intros Hplace Hpage top Htop st iss pa s s' Hp H sty pad. destruct (box_framed env callback Hplace Hpage st iss pa s s' H) as (h & s1 & s2 & frame & s3 & text & Hh & B & D & _ & _ & _ & W & _).
  exists h, s1, s2, frame. eexists _, _, _, _, _. split; [exact Hh|]. split; [exact W|]. split; [exact D|].
  unfold box_break in B. destruct (margins (ps_eng s1)) as [[[? ?] ?] m]. rewrite (box_height_prevent _ _ _ _ _ _ Hh), Hp in B. cbn [negb andb] in B.
  intros bottom Ht. apply q_bottom. destruct (leb (sub (pageHeight (ps_eng s1)) m) (add (snd (getXY (ps_eng s1))) h)) eqn:El.
  - rewrite (Htop _ _ B). exact Ht.
  - rewrite B. apply Qnot_le_lt. intro K. apply Qle_bool_iff in K. change (Qle_bool (sub (pageHeight (ps_eng s1)) m) (add (snd (getXY (ps_eng s1))) h) = false) in El. 
    exact (eq_true_false_abs _ K El).
Qed.
End Bottom.
