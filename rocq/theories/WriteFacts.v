(** The commands made for writing text. *)
From Coq Require Import Lia.
From Verif Require Import GoStr GoFmt GoStrFacts Num Style Class Text Instr Engine EngineFacts Layout Lines LinesSpec LinesFacts LinesLink WriteSpec DrawSpec DrawFacts.
Local Open Scope nat_scope.

Section State.
Local Transparent emitted.
Lemma text_state_eq : forall (F : Num) (eng : Engine F) (sty : Styles F) (s : PS F eng), text_state sty s =
  emitted (SetTextColor (R (TextColor (SColor sty))) (G (TextColor (SColor sty))) (B (TextColor (SColor sty)))) (emitted (ChangeFont (SFont sty)) s).
Proof. reflexivity. Qed.
End State.
Section Write.
Context {F : Num} {eng : Engine F} (callback : cb -> M eng unit).
Local Notation PS := (PS F eng).
Lemma wrote_nil : forall s : PS, wrote s s [].
Proof. intros s. exists []. rewrite app_nil_r. split; reflexivity. Qed.
Lemma wrote_app : forall (a b c : PS) l l', wrote a b l -> wrote b c l' -> wrote a c (l ++ l').
Proof. intros a b c l l' (e & E & M) (e' & E' & M'). exists (e ++ e'). rewrite E', E, app_assoc, map_app, M, M'. split; reflexivity. Qed.
Lemma wrote_cons : forall (a b c : PS) x l, wrote a b [x] -> wrote b c l -> wrote a c (x :: l).
Proof. intros. exact (wrote_app a b c [x] l H H0). Qed.
Lemma wrote_emit : forall c (s : PS), wrote s (emitted c s) [Simple c].
Proof. intros. exists [Ev (Simple c) []]. rewrite emitted_trace. split; reflexivity. Qed.
Lemma wrote_font : forall f (s : PS), wrote s (font_changed f s) [Simple (ChangeFont f)].
Proof. intros. exists [Ev (Simple (ChangeFont f)) []]. unfold font_changed. rewrite emitted_trace. split; reflexivity. Qed.
Lemma wrote_command : forall c p (s s' : PS), command callback c p s = Ok tt s' -> wrote s s' [c].
Proof.
  intros c p s s' H. unfold command in H. destruct (run_calls callback (p (ps_eng s)) [] s) as [calls s1| |]; try discriminate H.
  injection H as <-. exists [Ev c calls]. split; reflexivity.
Qed.
Lemma wrote_fonts : forall fs (s : PS), wrote s (fonts_changed fs s) (map (fun f => Simple (ChangeFont f)) fs).
Proof.
  induction fs as [|f fs IH]; intros s; [apply wrote_nil|]. cbn [fonts_changed fold_left map]. apply (wrote_cons _ (font_changed f s)); [apply wrote_font|apply IH].
Qed.

Lemma write_items_wrote : forall items s s', write_items callback items s = Ok tt s' -> wrote s s' (plain_items items).
Proof.
  induction items as [|it items IH]; intros s s' H; cbn [write_items] in H.
  - injection H as <-. apply wrote_nil.
  - apply bind_ok in H as ([] & s1 & H1 & H). apply lift_ok in H1. rewrite changeFont_eq in H1. injection H1 as <-.
    apply bind_ok in H as ([] & s2 & H2 & H). unfold plain_items. cbn [flat_map app].
    apply (wrote_cons _ (font_changed (SFont (i_sty it)) s)); [apply wrote_font|].
    apply (wrote_cons _ s2); [exact (wrote_command _ _ _ _ H2)|exact (IH _ _ H)].
Qed.
Lemma write_spaced_wrote : forall w items s s', write_spaced callback w items s = Ok tt s' ->
  exists xs, List.length xs = List.length items /\ wrote s s' (moved_items items xs).
Proof.
  intros w. induction items as [|it items IH]; intros s s' H; cbn [write_spaced] in H.
  - injection H as <-. exists []. split; [reflexivity|apply wrote_nil].
  - apply bind_ok in H as ([] & s1 & H1 & H). apply lift_ok in H1. rewrite changeFont_eq in H1. injection H1 as <-.
    apply bind_ok in H as ([] & s2 & H2 & H). apply bind_ok in H as (xy & s3 & H3 & H). apply lift_ok in H3. injection H3 as _ <-.
    apply bind_ok in H as ([] & s4 & H4 & H). apply lift_ok in H4. rewrite emit_eq in H4. injection H4 as <-.
    destruct (IH _ _ H) as (xs & L & W). exists (add (fst xy) w :: xs). split; [cbn; congruence|]. unfold moved_items. cbn [combine flat_map app fst snd].
    apply (wrote_cons _ (font_changed (SFont (i_sty it)) s)); [apply wrote_font|].
    apply (wrote_cons _ s2); [exact (wrote_command _ _ _ _ H2)|]. apply (wrote_cons _ (emitted (SetX (add (fst xy) w)) s2)); [apply wrote_emit|exact W].
Qed.
Lemma write_lines_wrote : forall width x sty lines s s', write_lines callback width x sty lines s = Ok tt s' ->
  wrote s s' (flat_map (line_cmds sty width x) lines).
Proof.
  intros width x sty. induction lines as [|l lines IH]; intros s s' H; cbn [write_lines] in H.
  - injection H as <-. apply wrote_nil.
  - apply bind_ok in H as ([] & s1 & H1 & H). apply lift_ok in H1. apply bind_ok in H as ([] & s2 & H2 & H).
    apply bind_ok in H as ([] & s3 & H3 & H). apply lift_ok in H3. rewrite emit_eq in H3. injection H3 as <-.
    cbn [flat_map]. apply (wrote_app _ (emitted (LineFeed (LineSpacing (SDim sty))) s2)); [|exact (IH _ _ H)].
    unfold line_cmds. apply (wrote_app _ s1).
    + unfold align_line in H1. unfold line_start. repeat (destruct (beqb _ _); [rewrite emit_eq in H1; injection H1 as <-; apply wrote_emit|]).
      injection H1 as <-. apply wrote_nil.
    + apply (wrote_app _ s2); [exact (write_items_wrote _ _ _ H2)|apply wrote_emit].
Qed.
Lemma write_lines_h_wrote : forall width x sty lines s s', write_lines_h callback width x sty lines s = Ok tt s' ->
  exists css, Forall2 (block_cmds sty x) lines css /\ wrote s s' (List.concat css).
Proof.
  intros width x sty. induction lines as [|l lines IH]; intros s s' H; cbn [write_lines_h] in H.
  - injection H as <-. exists []. split; [constructor|apply wrote_nil].
  - apply bind_ok in H as ([] & s1 & H1 & H). apply lift_ok in H1. rewrite emit_eq in H1. injection H1 as <-.
    apply bind_ok in H as ([] & s2 & H2 & H). apply bind_ok in H as ([] & s3 & H3 & H). apply lift_ok in H3. rewrite emit_eq in H3. injection H3 as <-.
    destruct (IH _ _ H) as (css & C & W).
    assert (exists cs, block_cmds sty x l cs /\ wrote s (emitted (LineFeed (LineSpacing (SDim sty))) s2) cs) as (cs & C1 & W1).
    { unfold block_cmds. assert (Es : ((Z.of_nat (List.length (l_items l)) - 1 <? 1)%Z || l_paragraph l) = negb (stretched l)).
      { unfold stretched. rewrite negb_andb, negb_involutive. f_equal. destruct (Nat.leb_spec 2 (List.length (l_items l))), (Z.ltb_spec (Z.of_nat (List.length (l_items l)) - 1) 1); try reflexivity; lia. }
      rewrite Es in H2. destruct (stretched l); cbn [negb] in H2.
      - apply write_spaced_wrote in H2 as (xs & L & W2). eexists. split; [exists xs; split; [exact L|reflexivity]|].
        apply (wrote_cons _ (emitted (SetX x) s)); [apply wrote_emit|]. apply (wrote_app _ s2); [exact W2|apply wrote_emit].
      - apply write_items_wrote in H2. eexists. split; [reflexivity|].
        apply (wrote_cons _ (emitted (SetX x) s)); [apply wrote_emit|]. apply (wrote_app _ s2); [exact H2|apply wrote_emit]. }
    exists (cs :: css). split; [constructor; assumption|]. cbn [List.concat]. exact (wrote_app _ _ _ _ _ W1 W).
Qed.

Variable mut : Styled F -> Styles F -> Styles F.
Hypothesis Hpage : page_stable (eng:=eng).
Lemma writeText_wrote : forall iss width sty s s', Lines.writeText callback mut iss width sty s = Ok tt s' ->
  exists lines s1, textLines mut iss width sty (text_state sty s) = (lines, s1) /\
    wrote s s' (start_cmds sty (text_fonts mut false (currentPage (ps_eng (text_state sty s))) sty iss) ++ flat_map (line_cmds sty width (fst (getXY (ps_eng s1)))) lines).
Proof.
  intros iss width sty s s' H. unfold Lines.writeText in H. apply bind_ok in H as ([] & s1 & H1 & H). apply lift_ok in H1. rewrite emit_eq in H1. injection H1 as <-.
  apply bind_ok in H as ([] & s1 & H1 & H). apply lift_ok in H1. unfold set_text_color in H1. rewrite emit_eq in H1. injection H1 as <-.
  rewrite <- text_state_eq in H.
  apply bind_ok in H as (lines & s2 & H2 & H). apply lift_ok in H2. apply bind_ok in H as (xy & s3 & H3 & H). apply lift_ok in H3. injection H3 as <- <-.
  exists lines, s2. split; [exact H2|]. unfold start_cmds. cbn [app].
  apply (wrote_cons _ (emitted (ChangeFont (SFont sty)) s)); [apply wrote_emit|]. apply (wrote_cons _ (text_state sty s)); [rewrite text_state_eq; apply wrote_emit|].
  apply (wrote_app _ s2); [|exact (write_lines_wrote _ _ _ _ _ _ H)].
  destruct (textLines_rules mut Hpage iss width sty (text_state sty s)) as (ls & gs & E & _). rewrite H2 in E. injection E as _ ->. apply wrote_fonts.
Qed.
Variable hyph : bytes -> list bytes.
Lemma writeTextHyphenated_wrote : forall iss width sty s s', writeTextHyphenated callback mut hyph iss width sty s = Ok tt s' ->
  exists lines s1 css, textLinesHyphenated mut hyph iss width sty (text_state sty s) = (lines, s1) /\
    Forall2 (block_cmds sty (fst (getXY (ps_eng s1)))) lines css /\
    wrote s s' (start_cmds sty (text_fonts mut true (currentPage (ps_eng (text_state sty s))) sty iss) ++ List.concat css).
Proof.
  intros iss width sty s s' H. unfold writeTextHyphenated in H. apply bind_ok in H as ([] & s1 & H1 & H). apply lift_ok in H1. rewrite emit_eq in H1. injection H1 as <-.
  apply bind_ok in H as ([] & s1 & H1 & H). apply lift_ok in H1. unfold set_text_color in H1. rewrite emit_eq in H1. injection H1 as <-.
  rewrite <- text_state_eq in H.
  apply bind_ok in H as (lines & s2 & H2 & H). apply lift_ok in H2. apply bind_ok in H as (xy & s3 & H3 & H). apply lift_ok in H3. injection H3 as <- <-.
  destruct (write_lines_h_wrote _ _ _ _ _ _ H) as (css & C & W).
  exists lines, s2, css. split; [exact H2|]. split; [exact C|]. unfold start_cmds. cbn [app].
  apply (wrote_cons _ (emitted (ChangeFont (SFont sty)) s)); [apply wrote_emit|]. apply (wrote_cons _ (text_state sty s)); [rewrite text_state_eq; apply wrote_emit|].
  apply (wrote_app _ s2); [|exact W].
  destruct (textLinesHyphenated_rules mut hyph Hpage iss width sty (text_state sty s)) as (ls & gs & E & _). rewrite H2 in E. injection E as _ ->. apply wrote_fonts.
Qed.
End Write.
