(** Written and measured heights in binary64 (C52). *)
From Coq Require Import ZArith Reals Lia Lra Psatz Floats.SpecFloat.
From Flocq Require Import Core.Core.
From Verif Require Import GoStr GoFmt GoStrFacts Num Style Class Text Instr Engine EngineFacts Layout Table Lines Proc TableView LinesSpec LinesView LinesFacts LinesThms LinesLink WriteSpec WriteFacts WriteThms DrawFacts LinesWit FloatSpec FloatBase FloatRel FloatTable FloatLines FloatHeight FloatTall FloatWriteSpec.
From Coq Require Import Rdefinitions.
Local Open Scope nat_scope.

Section Writer.
Context {eng : Engine NumF64}.
Variable mut : Styled NumF64 -> Styles NumF64 -> Styles NumF64.
Variable hyph : bytes -> list bytes.
Local Notation PS := (PS NumF64 eng).
Variables (tw : Font NumF64 -> bytes -> NumF64) (fh : Font NumF64 -> NumF64) (font : est eng -> Font NumF64).
Hypothesis W : float_printer eng tw fh font.
Lemma writer_stable : page_stable (eng:=eng).
Proof. intros f e. exact (proj1 (FP_page _ _ _ _ W e) f). Qed.
Variable callback : cb -> M eng unit.
Lemma write_runs : forall t (s s' : PS), write_text callback t s = Ok tt s' -> font (ps_eng s') = font (ps_eng s) /\ snd (getXY (ps_eng s')) = snd (getXY (ps_eng s)).
Proof.
  intros t s s' H. unfold write_text, command in H. destruct (FP_write _ _ _ _ W t (ps_eng s)) as (e' & E & E1 & E3). rewrite E in H. cbn in H. injection H as <-. split; [exact E1|exact E3].
Qed.
(** ** Heights *)
Lemma sbind_run : forall A B (m : St eng A) (k : A -> St eng B) s a s', m s = (a, s') -> sbind m k s = k a s'.
Proof. intros A B m k s a s' H. unfold sbind. rewrite H. reflexivity. Qed.
Definition same (s1 s2 : PS) : Prop := font (ps_eng s1) = font (ps_eng s2) /\ currentPage (ps_eng s1) = currentPage (ps_eng s2).
Lemma same_width : forall s1 s2, same s1 s2 -> forall x, textWidth (ps_eng s1) x = textWidth (ps_eng s2) x.
Proof. intros s1 s2 [S _] x. rewrite !(FP_width _ _ _ _ W), S. reflexivity. Qed.
Lemma same_font : forall s1 s2 f, same s1 s2 -> same (font_changed f s1) (font_changed f s2).
Proof.
  intros s1 s2 f [_ S]. split; rewrite !font_eng.
  - exact (eq_trans (proj1 (FP_set _ _ _ _ W _ _)) (eq_sym (proj1 (FP_set _ _ _ _ W _ _)))).
  - exact (eq_trans (proj1 (FP_page _ _ _ _ W _) f) (eq_trans S (eq_sym (proj1 (FP_page _ _ _ _ W _) f)))).
Qed.
Lemma place_words_same : forall width st ws lines curr s1 s2, same s1 s2 ->
  exists r, place_words (eng:=eng) width st ws lines curr s1 = (r, s1) /\ place_words width st ws lines curr s2 = (r, s2).
Proof.
  intros width st. induction ws as [|w ws IH]; intros lines curr s1 s2 S; cbn [place_words]; [eexists; split; reflexivity|].
  rewrite !sbind_query, (same_width s1 s2 S). destruct (Num.leb width _); apply IH; exact S.
Qed.
Lemma read_same : forall sty is s1 s2, same s1 s2 -> exists p, read_piece mut sty is s1 = (p, s1) /\ read_piece mut sty is s2 = (p, s2).
Proof.
  intros sty is s1 s2 [_ S]. destruct is; try (eexists; split; reflexivity); cbn [read_piece]; unfold sbind; rewrite !norm_eq, S; eexists; split; reflexivity.
Qed.
Lemma place_pieces_same : forall width sty iss lines curr s1 s2, same s1 s2 ->
  fst (place_pieces (eng:=eng) mut width sty iss lines curr s1) = fst (place_pieces mut width sty iss lines curr s2).
Proof.
  intros width sty. induction iss as [|is iss IH]; intros lines curr s1 s2 S; [reflexivity|]. cbn [place_pieces]. destruct (read_same sty is s1 s2 S) as (p & E1 & E2).
  rewrite (sbind_run _ _ _ _ _ _ _ E1), (sbind_run _ _ _ _ _ _ _ E2). destruct p as [|it|]; try (apply IH; exact S). destruct (i_text it) as [|c t]; [apply IH; exact S|].
  rewrite !sbind_font. destruct (place_words_same width (i_sty it) (Lines.words (c :: t)) lines curr _ _ (same_font s1 s2 (SFont (i_sty it)) S)) as (r & P1 & P2).
  rewrite (sbind_run _ _ _ _ _ _ _ P1), (sbind_run _ _ _ _ _ _ _ P2). apply IH. apply same_font. exact S.
Qed.
Lemma try_same : forall parts avail i s1 s2, same s1 s2 -> exists r, try_parts (eng:=eng) parts avail i s1 = (r, s1) /\ try_parts parts avail i s2 = (r, s2).
Proof.
  intros parts avail. induction i as [|i IH]; intros s1 s2 S; cbn [try_parts]; [eexists; split; reflexivity|]. rewrite !sbind_query, (same_width s1 s2 S).
  destruct (Num.leb _ avail); [eexists; split; reflexivity|apply IH; exact S].
Qed.
Lemma place_words_h_same : forall width st ws lines curr s1 s2, same s1 s2 ->
  exists r, place_words_h (eng:=eng) hyph width st ws lines curr s1 = (r, s1) /\ place_words_h hyph width st ws lines curr s2 = (r, s2).
Proof.
  intros width st. induction ws as [|w ws IH]; intros lines curr s1 s2 S; cbn [place_words_h]; [eexists; split; reflexivity|].
  assert (Wd := same_width s1 s2 S). rewrite !sbind_query, !Wd. destruct (Num.leb width _); [|rewrite !sbind_ret; apply IH; exact S].
  assert (exists h, tryHyphenate hyph width w (l_width curr) s1 = (h, s1) /\ tryHyphenate hyph width w (l_width curr) s2 = (h, s2)) as (h & T1 & T2).
  { unfold tryHyphenate. destruct (_ <? 2); [eexists; split; reflexivity|apply try_same; exact S]. }
  assert (exists r, forall s, s = s1 \/ s = s2 -> sbind (tryHyphenate hyph width w (l_width curr)) (fun h => match h with
    | None => sret (lines ++ [curr], @empty_line NumF64, w, textWidth (ps_eng s2) (sp :: w), textWidth (ps_eng s2) w)
    | Some (x1, x2) => sbind (query (fun e => textWidth e x1)) (fun w1 => sbind (query (fun e => textWidth e (trim is_sp x1))) (fun p1 =>
        sbind (query (fun e => textWidth e x2)) (fun w2 => sbind (query (fun e => textWidth e (trim is_sp x2))) (fun p2 =>
        sret (lines ++ [mkLine (l_items curr ++ [mkItem st x1]) (add (l_width curr) w1) (add (l_pure curr) p1) (l_paragraph curr)], @empty_line NumF64, x2, w2, p2)))))
    end) s = (r, s)) as (r & R).
  { destruct h as [[x1 x2]|]; eexists; intros s [->| ->]; first [rewrite (sbind_run _ _ _ _ _ _ _ T1)|rewrite (sbind_run _ _ _ _ _ _ _ T2)]; try reflexivity; rewrite !sbind_query, ?Wd; reflexivity. }
  rewrite (sbind_run _ _ _ _ _ _ _ (R s1 (or_introl eq_refl))), (sbind_run _ _ _ _ _ _ _ (R s2 (or_intror eq_refl))). destruct r as [[[[ls c] w'] a] b]. apply IH. exact S.
Qed.
Lemma place_pieces_h_same : forall width sty iss lines curr s1 s2, same s1 s2 ->
  fst (place_pieces_h (eng:=eng) mut hyph width sty iss lines curr s1) = fst (place_pieces_h mut hyph width sty iss lines curr s2).
Proof.
  intros width sty. induction iss as [|is iss IH]; intros lines curr s1 s2 S; [reflexivity|]. cbn [place_pieces_h]. destruct (read_same sty is s1 s2 S) as (p & E1 & E2).
  rewrite (sbind_run _ _ _ _ _ _ _ E1), (sbind_run _ _ _ _ _ _ _ E2). destruct p as [|it|]; try (apply IH; exact S).
  rewrite !sbind_font. destruct (place_words_h_same width (i_sty it) (Lines.words (i_text it)) lines curr _ _ (same_font s1 s2 (SFont (i_sty it)) S)) as (r & P1 & P2).
  rewrite (sbind_run _ _ _ _ _ _ _ P1), (sbind_run _ _ _ _ _ _ _ P2). apply IH. apply same_font. exact S.
Qed.
Lemma lines_same : forall iss width sty s1 s2, same s1 s2 ->
  fst (textLines (eng:=eng) mut iss width sty s1) = fst (textLines mut iss width sty s2) /\
  fst (textLinesHyphenated (eng:=eng) mut hyph iss width sty s1) = fst (textLinesHyphenated mut hyph iss width sty s2).
Proof.
  intros iss width sty s1 s2 S. unfold textLines, textLinesHyphenated, sbind.
  assert (A := place_pieces_same width sty iss [] empty_line s1 s2 S). assert (B := place_pieces_h_same width sty iss [] empty_line s1 s2 S).
  destruct (place_pieces _ _ _ _ _ _ s1) as [[l1 c1] p1], (place_pieces _ _ _ _ _ _ s2) as [[l2 c2] p2]. cbn in A. injection A as -> ->.
  destruct (place_pieces_h _ _ _ _ _ _ _ s1) as [[k1 d1] q1], (place_pieces_h _ _ _ _ _ _ _ s2) as [[k2 d2] q2]. cbn in B. injection B as -> ->. split; reflexivity.
Qed.

(** The fonts of the items. *)
Lemma tokens_fonts : forall blank n sty iss (e : est eng) st w m, In (TWord st w m) (tokens mut blank n sty iss e) -> In (SFont st) (text_fonts mut blank n sty iss).
Proof.
  intros blank n sty. induction iss as [|is iss IH]; intros e st w m H; [destruct H|].
  assert (K : forall st' ws (e : est eng), In (TWord st w m) match match ws with [] => if blank then [[]] else [] | _ => ws end with [] => tokens mut blank n sty iss e
     | ws => map (fun w => TWord st' w (textWidth (simple (ChangeFont (SFont st')) e))) ws ++ tokens mut blank n sty iss (simple (ChangeFont (SFont st')) e) end ->
     In (SFont st) (if negb blank && match ws with [] => true | _ => false end then text_fonts mut blank n sty iss else SFont st' :: text_fonts mut blank n sty iss)).
  { intros st' ws e0 H0. destruct ws as [|w0 ws].
    - destruct blank; cbn [negb andb]; [|exact (IH _ _ _ _ H0)]. apply in_app_or in H0 as [H0|H0]; [|right; exact (IH _ _ _ _ H0)].
      destruct H0 as [H0|[]]. injection H0 as <- _ _. left. reflexivity.
    - rewrite andb_false_r. apply in_app_or in H0 as [H0|H0]; [|right; exact (IH _ _ _ _ H0)]. apply in_map_iff in H0 as (w' & E & Hw). injection E as <- _ _. left. reflexivity. }
  cbn [tokens] in H. cbn [text_fonts]. destruct is; cbn [reading] in H |- *; try exact (IH _ _ _ _ H).
  - exact (K _ _ _ H).
  - exact (K _ _ _ H).
  - destruct H as [H|H]; [discriminate H|exact (IH _ _ _ _ H)].
Qed.
Lemma frag_sty : forall h ts width gs, broken_into h width ts gs -> forall (P : Styles NumF64 -> Prop), (forall st w m, In (TWord st w m) ts -> P st) ->
  forall g f b, In g gs -> In f (g_frags g) -> P (i_sty (frag_item b f)).
Proof.
  intros h ts width gs [B1 B2 B3] P Ht g f b Hg Hf.
  assert (HT : forall g st w m f, In g gs -> In f (g_frags g) -> In (TWord st w m) (frag_tokens f) -> P st).
  { intros g0 st w m f0 H1 H2 H3. apply (Ht st w m). rewrite <- B1. apply in_flat_map. exists g0. split; [exact H1|]. unfold group_tokens. apply in_or_app. left. apply in_flat_map. exists f0. split; assumption. }
  destruct f as [st w m|st w a b' m|st r m]; cbn [frag_item i_sty].
  - apply (HT g st w m _ Hg Hf). left. reflexivity.
  - apply (HT g st w m _ Hg Hf). left. reflexivity.
  - apply in_split in Hg as (x & y & Eg). apply in_split in Hf as (pre & post & Ef).
    destruct (proj1 (proj1 (groups_at _ _ _ _ B2 x g y Eg) pre _ post Ef)) as (_ & p & w & a & b' & Ep & _). apply last_in in Ep.
    apply (HT _ st w m (Head st w a b' m) ltac:(rewrite Eg; apply in_or_app; left; exact Ep)); [cbn; apply in_or_app; right; left; reflexivity|left; reflexivity].
Qed.
Lemma in_items : forall fs it, In it (items_of (F:=NumF64) fs) -> exists b f, In f fs /\ it = frag_item b f.
Proof.
  intros [|f fs] it H; [destruct H|]. destruct H as [<-|H]; [exists true, f; split; [left; reflexivity|reflexivity]|].
  apply in_map_iff in H as (x & <- & Hx). exists false, x. split; [right; exact Hx|reflexivity].
Qed.
Variable hgt : NumF64.
Definition fonts_high (blank : bool) (sty : Styles NumF64) (iss : list (instr NumF64)) (n : Z) : Prop :=
  fh (SFont sty) = hgt /\ forall f, In f (text_fonts mut blank n sty iss) -> fh f = hgt.
Definition line_high (l : textLine NumF64) : Prop := forall it, In it (l_items l) -> fh (SFont (i_sty it)) = hgt.
Lemma fonts_end : forall fs (s : PS), (forall f, In f fs -> fh f = hgt) -> fh (font (ps_eng s)) = hgt ->
  fh (font (ps_eng (fonts_changed fs s))) = hgt /\ getXY (ps_eng (fonts_changed fs s)) = getXY (ps_eng s).
Proof.
  induction fs as [|f fs IH]; intros s H1 H2; [split; [exact H2|reflexivity]|]. cbn [fonts_changed fold_left].
  destruct (FP_set _ _ _ _ W f (ps_eng s)) as [F1 F2]. destruct (IH (font_changed f s)) as [A B].
  - intros f' Hf'. apply H1. right. exact Hf'.
  - rewrite font_eng. exact (eq_trans (f_equal fh F1) (H1 f (or_introl eq_refl))).
  - split; [exact A|]. exact (eq_trans B F2).
Qed.
Lemma lines_high : forall iss width sty (s : PS), fonts_high false sty iss (currentPage (ps_eng s)) -> fh (font (ps_eng s)) = hgt ->
  exists lines s1, textLines mut iss width sty s = (lines, s1) /\ Forall line_high lines /\ fh (font (ps_eng s1)) = hgt /\ getXY (ps_eng s1) = getXY (ps_eng s).
Proof.
  intros iss width sty s [H1 H2] Hs. destruct (textLines_rules mut writer_stable iss width sty s) as (lines & gs & E & L & B). do 2 eexists. split; [exact E|].
  destruct (fonts_end (text_fonts mut false (currentPage (ps_eng s)) sty iss) s H2 Hs) as [A1 A2]. split; [|split; [exact A1|exact A2]].
  apply Forall_forall. intros l Hl it Hit. destruct (Forall2_in_l _ _ _ _ _ L l Hl) as (g & Hg & L1 & _). rewrite L1 in Hit. destruct (in_items _ _ Hit) as (b & f & Hf & ->).
  apply (frag_sty _ _ _ _ B (fun st => fh (SFont st) = hgt)) with (g := g); [|exact Hg|exact Hf]. intros st w m Hin. apply H2. exact (tokens_fonts _ _ _ _ _ _ _ _ Hin).
Qed.
Lemma lines_high_h : forall iss width sty (s : PS), fonts_high true sty iss (currentPage (ps_eng s)) -> fh (font (ps_eng s)) = hgt ->
  exists lines s1, textLinesHyphenated mut hyph iss width sty s = (lines, s1) /\ Forall line_high lines /\ fh (font (ps_eng s1)) = hgt /\ getXY (ps_eng s1) = getXY (ps_eng s).
Proof.
  intros iss width sty s [H1 H2] Hs. destruct (textLinesHyphenated_rules mut hyph writer_stable iss width sty s) as (lines & gs & E & L & _ & B). do 2 eexists. split; [exact E|].
  destruct (fonts_end (text_fonts mut true (currentPage (ps_eng s)) sty iss) s H2 Hs) as [A1 A2]. split; [|split; [exact A1|exact A2]].
  apply Forall_forall. intros l Hl it Hit. destruct (Forall2_in_l _ _ _ _ _ L l Hl) as (g & Hg & [L1 _] & _). rewrite L1 in Hit. destruct (in_items _ _ Hit) as (b & f & Hf & ->).
  apply (frag_sty _ _ _ _ B (fun st => fh (SFont st) = hgt)) with (g := g); [|exact Hg|exact Hf]. intros st w m Hin. apply H2. exact (tokens_fonts _ _ _ _ _ _ _ _ Hin).
Qed.
(** Writing the items of a line leaves the height of the cursor alone. *)
Definition level (s s' : PS) : Prop := snd (getXY (ps_eng s')) = snd (getXY (ps_eng s)) /\ (fh (font (ps_eng s)) = hgt -> fh (font (ps_eng s')) = hgt).
Lemma level_refl : forall s, level s s.
Proof. intros s. split; [reflexivity|tauto]. Qed.
Lemma level_trans : forall a b c, level a b -> level b c -> level a c.
Proof. intros a b c [A1 A2] [B1 B2]. split; [congruence|tauto]. Qed.
Lemma level_font : forall f s, fh f = hgt -> level s (font_changed f s).
Proof. intros f s H. destruct (FP_set _ _ _ _ W f (ps_eng s)) as [F1 F2]. split; [exact (f_equal snd F2)|]. intros _. exact (eq_trans (f_equal fh F1) H). Qed.
Lemma level_x : forall x s, level s (emitted (SetX x) s).
Proof. intros x s. destruct (FP_x _ _ _ _ W x (ps_eng s)) as [F1 F2]. split; [exact F2|]. intros H. exact (eq_trans (f_equal fh F1) H). Qed.
Lemma level_write : forall t s s', write_text callback t s = Ok tt s' -> level s s'.
Proof. intros t s s' H. destruct (write_runs t s s' H) as (A & B). split; [exact B|]. intros K. exact (eq_trans (f_equal fh A) K). Qed.
Lemma level_items : forall items s s', (forall it, In it items -> fh (SFont (i_sty it)) = hgt) -> write_items callback items s = Ok tt s' -> level s s'.
Proof.
  induction items as [|it items IH]; intros s s' Hi H; cbn [write_items] in H; [injection H as <-; apply level_refl|].
  apply bind_ok in H as ([] & s1 & H1 & H). apply lift_ok in H1. rewrite changeFont_eq in H1. injection H1 as <-. apply bind_ok in H as ([] & s2 & H2 & H).
  apply (level_trans _ (font_changed (SFont (i_sty it)) s)); [apply level_font, Hi; left; reflexivity|]. apply (level_trans _ s2); [exact (level_write _ _ _ H2)|].
  apply IH; [|exact H]. intros x Hx. apply Hi. right. exact Hx.
Qed.
Lemma level_spaced : forall gap items s s', (forall it, In it items -> fh (SFont (i_sty it)) = hgt) -> write_spaced callback gap items s = Ok tt s' -> level s s'.
Proof.
  intros gap. induction items as [|it items IH]; intros s s' Hi H; cbn [write_spaced] in H; [injection H as <-; apply level_refl|].
  apply bind_ok in H as ([] & s1 & H1 & H). apply lift_ok in H1. rewrite changeFont_eq in H1. injection H1 as <-. apply bind_ok in H as ([] & s2 & H2 & H).
  apply bind_ok in H as (xy & s3 & H3 & H). apply lift_ok in H3. injection H3 as <- <-. apply bind_ok in H as ([] & s4 & H4 & H). apply lift_ok in H4. rewrite emit_eq in H4. injection H4 as <-.
  apply (level_trans _ (font_changed (SFont (i_sty it)) s)); [apply level_font, Hi; left; reflexivity|]. apply (level_trans _ s2); [exact (level_write _ _ _ H2)|].
  eapply level_trans; [apply level_x|]. apply (IH _ _ (fun x Hx => Hi x (or_intror Hx)) H).
Qed.
Lemma feed_line : forall (n : NumF64) s, (0 <= fval (mul hgt n))%R -> fh (font (ps_eng s)) = hgt ->
  snd (getXY (ps_eng (emitted (LineFeed n) s))) = add (snd (getXY (ps_eng s))) (mul hgt n) /\ fh (font (ps_eng (emitted (LineFeed n) s))) = hgt.
Proof.
  intros n s Hn H. destruct (FP_feed _ _ _ _ W n (ps_eng s)) as [F1 F2]. rewrite (FP_height _ _ _ _ W), H in F2. split; [exact (F2 Hn)|]. exact (eq_trans (f_equal fh F1) H).
Qed.
Definition down (n : nat) (d y : NumF64) : NumF64 := fold_left add (List.repeat d n) y.
Lemma lines_down : forall width x (sty : Styles NumF64) lines s s', (0 <= fval (mul hgt (LineSpacing (SDim sty))))%R -> Forall line_high lines -> fh (font (ps_eng s)) = hgt -> write_lines callback width x sty lines s = Ok tt s' ->
  snd (getXY (ps_eng s')) = down (List.length lines) (mul hgt (LineSpacing (SDim sty))) (snd (getXY (ps_eng s))).
Proof.
  intros width x sty. induction lines as [|l lines IH]; intros s s' Hn Hl Hs H; cbn [write_lines] in H; [injection H as <-; reflexivity|]. inversion Hl as [|? ? Hl1 Hl2]; subst.
  apply bind_ok in H as ([] & s1 & H1 & H). apply lift_ok in H1. apply bind_ok in H as ([] & s2 & H2 & H).
  apply bind_ok in H as ([] & s3 & H3 & H). apply lift_ok in H3. rewrite emit_eq in H3. injection H3 as <-.
  assert (L : level s s2).
  { apply (level_trans _ s1); [|exact (level_items _ _ _ Hl1 H2)]. unfold align_line in H1. repeat (destruct (beqb _ _); [rewrite emit_eq in H1; injection H1 as <-; apply level_x|]). injection H1 as <-. apply level_refl. }
  destruct L as [L1 L2]. destruct (feed_line (LineSpacing (SDim sty)) s2 Hn (L2 Hs)) as [F1 F2]. rewrite (IH _ _ Hn Hl2 F2 H), F1, L1. reflexivity.
Qed.
Lemma lines_down_h : forall width x (sty : Styles NumF64) lines s s', (0 <= fval (mul hgt (LineSpacing (SDim sty))))%R -> Forall line_high lines -> fh (font (ps_eng s)) = hgt -> write_lines_h callback width x sty lines s = Ok tt s' ->
  snd (getXY (ps_eng s')) = down (List.length lines) (mul hgt (LineSpacing (SDim sty))) (snd (getXY (ps_eng s))).
Proof.
  intros width x sty. induction lines as [|l lines IH]; intros s s' Hn Hl Hs H; cbn [write_lines_h] in H; [injection H as <-; reflexivity|]. inversion Hl as [|? ? Hl1 Hl2]; subst.
  apply bind_ok in H as ([] & s1 & H1 & H). apply lift_ok in H1. rewrite emit_eq in H1. injection H1 as <-. apply bind_ok in H as ([] & s2 & H2 & H).
  apply bind_ok in H as ([] & s3 & H3 & H). apply lift_ok in H3. rewrite emit_eq in H3. injection H3 as <-.
  assert (L : level s s2).
  { eapply level_trans; [apply level_x|]. destruct (_ || _); [exact (level_items _ _ _ Hl1 H2)|exact (level_spaced _ _ _ _ Hl1 H2)]. }
  destruct L as [L1 L2]. destruct (feed_line (LineSpacing (SDim sty)) s2 Hn (L2 Hs)) as [F1 F2]. rewrite (IH _ _ Hn Hl2 F2 H), F1, L1. reflexivity.
Qed.
Lemma font_page : forall f (s : PS), currentPage (ps_eng (emitted (ChangeFont f) s)) = currentPage (ps_eng s) /\ font (ps_eng (emitted (ChangeFont f) s)) = f.
Proof. intros f s. split; [exact (proj1 (FP_page _ _ _ _ W _) f)|exact (proj1 (FP_set _ _ _ _ W _ _))]. Qed.
Lemma text_state_facts : forall sty (s : PS), currentPage (ps_eng (text_state sty s)) = currentPage (ps_eng s) /\ font (ps_eng (text_state sty s)) = SFont sty /\ getXY (ps_eng (text_state sty s)) = getXY (ps_eng s).
Proof.
  intros sty s. rewrite text_state_eq. destruct (font_page (SFont sty) s) as [A B]. repeat split.
  - exact (eq_trans (proj2 (FP_page _ _ _ _ W _) _ _ _) A).
  - exact (eq_trans (proj1 (FP_color _ _ _ _ W _ _ _ _)) B).
  - exact (eq_trans (proj2 (FP_color _ _ _ _ W _ _ _ _)) (proj2 (FP_set _ _ _ _ W _ _))).
Qed.
Definition measured (n : nat) (h l : NumF64) : NumF64 := add (sub (mul (of_Z (Z.of_nat n)) (mul h l)) (mul h l)) h.
Lemma height_value : forall n sty (s1 : PS), fh (font (ps_eng s1)) = hgt -> fst (lines_height n sty s1) = measured n hgt (LineSpacing (SDim sty)).
Proof. intros n sty s1 H. unfold lines_height. rewrite !sbind_query, !(FP_height _ _ _ _ W), H. reflexivity. Qed.
Lemma written_down : forall iss width (sty : Styles NumF64) (s s0 s' : PS), (0 <= fval (mul hgt (LineSpacing (SDim sty))))%R ->
  fonts_high (beqb (HAlign (SAlign sty)) ($"block")) sty iss (currentPage (ps_eng s)) -> currentPage (ps_eng s0) = currentPage (ps_eng s) ->
  writeTextFnc callback mut hyph sty iss width sty s = Ok tt s' ->
  let n := measured_lines mut hyph iss width sty s0 in
  snd (getXY (ps_eng s')) = down n (mul hgt (LineSpacing (SDim sty))) (snd (getXY (ps_eng s))) /\
  fst (textHeightFnc mut hyph sty iss width sty s0) = measured n hgt (LineSpacing (SDim sty)).
Proof.
  intros iss width sty s s0 s' Hn Hf Hp H. unfold measured_lines. rewrite emit_eq. cbn [snd]. unfold writeTextFnc, textHeightFnc in *. destruct (font_page (SFont sty) s0) as [P0 F0]. destruct (text_state_facts sty s) as (P1 & F1 & X1).
  assert (S : same (emitted (ChangeFont (SFont sty)) s0) (text_state sty s)) by (split; congruence).
  destruct (lines_same iss width sty _ _ S) as [S1 S2]. destruct (beqb (HAlign (SAlign sty)) ($"block")).
  - unfold writeTextHyphenated in H. apply bind_ok in H as ([] & s1 & H1 & H). apply lift_ok in H1. rewrite emit_eq in H1. injection H1 as <-.
    apply bind_ok in H as ([] & s1 & H1 & H). apply lift_ok in H1. unfold set_text_color in H1. rewrite emit_eq in H1. injection H1 as <-.
    rewrite <- text_state_eq in H.
    apply bind_ok in H as (lines & s2 & H2 & H). apply lift_ok in H2. apply bind_ok in H as (xy & s3 & H3 & H). apply lift_ok in H3. injection H3 as <- <-.
    destruct (lines_high_h iss width sty (text_state sty s)) as (ls & s1 & E & L & Hs1 & X2); [rewrite P1; exact Hf|rewrite F1; exact (proj1 Hf)|]. rewrite H2 in E. injection E as <- <-.
    rewrite (lines_down_h _ _ _ _ _ _ Hn L Hs1 H). unfold textHeightHyphenated. rewrite sbind_emit.
    destruct (lines_high_h iss width sty (emitted (ChangeFont (SFont sty)) s0)) as (ls & q & E & _ & Hq & _); [rewrite P0, Hp; exact Hf|rewrite F0; exact (proj1 Hf)|].
    unfold sbind. rewrite E in S2 |- *. rewrite H2 in S2. cbn in S2. subst ls. cbn [fst]. rewrite (height_value _ _ _ Hq), X2, X1. split; reflexivity.
  - unfold Lines.writeText in H. apply bind_ok in H as ([] & s1 & H1 & H). apply lift_ok in H1. rewrite emit_eq in H1. injection H1 as <-.
    apply bind_ok in H as ([] & s1 & H1 & H). apply lift_ok in H1. unfold set_text_color in H1. rewrite emit_eq in H1. injection H1 as <-.
    rewrite <- text_state_eq in H.
    apply bind_ok in H as (lines & s2 & H2 & H). apply lift_ok in H2. apply bind_ok in H as (xy & s3 & H3 & H). apply lift_ok in H3. injection H3 as <- <-.
    destruct (lines_high iss width sty (text_state sty s)) as (ls & s1 & E & L & Hs1 & X2); [rewrite P1; exact Hf|rewrite F1; exact (proj1 Hf)|]. rewrite H2 in E. injection E as <- <-.
    rewrite (lines_down _ _ _ _ _ _ Hn L Hs1 H). unfold textHeight. rewrite sbind_emit.
    destruct (lines_high iss width sty (emitted (ChangeFont (SFont sty)) s0)) as (ls & q & E & _ & Hq & _); [rewrite P0, Hp; exact Hf|rewrite F0; exact (proj1 Hf)|].
    unfold sbind. rewrite E in S1 |- *. rewrite H2 in S1. cbn in S1. subst ls. cbn [fst]. rewrite (height_value _ _ _ Hq), X2, X1. split; reflexivity.
Qed.
End Writer.

Local Open Scope R_scope.
Lemma sum_repeat : forall n x, sumR (List.repeat x n) = INR n * x.
Proof. induction n as [|n IH]; intros x; [cbn; ring|]. cbn [List.repeat]. rewrite S_INR. unfold sumR in *. cbn [fold_right]. rewrite IH. ring. Qed.
Lemma repeat_map : forall (f : NumF64 -> R) n x, map f (List.repeat x n) = List.repeat (f x) n.
Proof. intros f. induction n as [|n IH]; intros x; [reflexivity|]. cbn. rewrite IH. reflexivity. Qed.
Lemma eta_pos : 0 < eta.
Proof. rewrite eta_val. apply Rinv_0_lt_compat, pow2_pos. Qed.
Lemma heights_agree : forall (n : nat) (y h l : NumF64), (Z.of_nat n < 2 ^ 20)%Z -> moderate y -> 0 <= fval y -> moderate h -> 0 <= fval h -> moderate l -> 0 <= fval l -> moderate (mul h l) ->
  fin (down n (mul h l) y) /\ fin (measured n h l) /\
  Rabs (fval (down n (mul h l) y) - (fval y + (fval (measured n h l) + (fval l - 1) * fval h))) <= height_error n (fval y) (fval h) (fval l).
Proof.
  intros n y h l Hn [Fy By] Py [Fh Bh] Ph [Fl Bl] Pl [Fp Bp]. assert (U := u_small). assert (EP := eta_pos).
  assert (Q := pow2_pos 200). rewrite Rabs_pos_eq in By, Bh, Bl by assumption.
  assert (Bhl : 0 <= fval h * fval l <= 2 ^ 1000).
  { split; [apply Rmult_le_pos; assumption|]. apply (Rle_trans _ (2 ^ 200 * 2 ^ 200)); [apply Rmult_le_compat; assumption|]. rewrite <- pow_add. apply Rle_pow; [lra|lia]. }
  destruct (mul_err h l Fh Fl) as (_ & e & t & He & Ht & Ev); [rewrite Rabs_pos_eq; lra|].
  assert (PL : 0 <= fval (mul h l)).
  { destruct (mul_ok h l Fh Fl) as [_ E]; [apply (rnd_small _ 1000); [lia|rewrite Rabs_pos_eq; lra]|]. rewrite E. apply rnd_nonneg. lra. }
  set (lh := mul h l) in *. set (hl := fval h * fval l) in *. set (L := fval lh) in *.
  assert (DL : Rabs (L - hl) <= u * hl + eta).
  { rewrite Ev. replace (hl * (1 + e) + t - hl) with (e * hl + t) by ring. eapply Rle_trans; [apply Rabs_triang|]. rewrite Rabs_mult, (Rabs_pos_eq hl) by lra. apply Rplus_le_compat; [apply Rmult_le_compat_r; [lra|exact He]|exact Ht]. }
  rewrite Rabs_pos_eq in Bp by exact PL. fold L in Bp.
  assert (N0 : 0 <= INR n) by apply pos_INR. assert (N1 : INR n + 1 <= 2 ^ 20).
  { rewrite <- S_INR, INR_IZR_INZ. replace (2 ^ 20)%R with (IZR (2 ^ 20)) by (simpl; lra). apply IZR_le. lia. }
  (* writing *)
  destruct (sum_float (List.repeat lh n) y (fval y) 1) as [F1 E1].
  { intros r Hr. apply repeat_spec in Hr as ->. split; [split; [exact Fp|rewrite Rabs_pos_eq; assumption]|exact PL]. }
  { exact Fy. } { exact Py. }
  { rewrite Rminus_diag_eq, Rabs_R0 by reflexivity. cbn [INR]. nra. }
  { rewrite repeat_length. lia. }
  { cbn [INR]. lra. }
  rewrite repeat_length, repeat_map, sum_repeat in E1. fold L in E1. unfold down. set (w := fval (fold_left add (List.repeat lh n) y)) in *.
  split; [exact F1|].
  (* measuring *)
  assert (P2 : 2 ^ 20 * 2 ^ 200 * 8 <= 2 ^ 1000).
  { replace (2 ^ 20 * 2 ^ 200 * 8) with (2 ^ (20 + 200 + 3)) by (rewrite !pow_add; simpl (2 ^ 3); ring). apply Rle_pow; [lra|lia]. }
  assert (P1 : 1 <= 2 ^ 20) by (simpl; lra).
  destruct (of_Z_ok (Z.of_nat n)) as [Fn En]; [lia|]. rewrite <- INR_IZR_INZ in En.
  set (P20 := 2 ^ 20) in *. set (P200 := 2 ^ 200) in *.
  assert (BnL : 0 <= INR n * L <= P20 * P200) by (split; [nra|apply Rmult_le_compat; lra]).
  assert (P3 : P200 <= P20 * P200) by nra.
  destruct (mul_err (of_Z (Z.of_nat n)) lh Fn Fp) as (F2 & e2 & t2 & He2 & Ht2 & E2); [rewrite En; fold L; rewrite Rabs_pos_eq; lra|]. rewrite En in E2. fold L in E2.
  set (m := fval (mul (of_Z (Z.of_nat n)) lh)) in *. set (nL := INR n * L) in *.
  assert (Eta1 : eta <= 1).
  { rewrite eta_val, <- Rinv_1. apply Rinv_le_contravar; [lra|]. apply pow_R1_Rle. lra. }
  assert (Pb : 1 <= P200) by (apply pow_R1_Rle; lra).
  assert (D2 : Rabs (m - nL) <= u * nL + eta).
  { rewrite E2. replace (nL * (1 + e2) + t2 - nL) with (e2 * nL + t2) by ring. eapply Rle_trans; [apply Rabs_triang|]. rewrite Rabs_mult, (Rabs_pos_eq nL) by lra. apply Rplus_le_compat; [apply Rmult_le_compat_r; [lra|exact He2]|exact Ht2]. }
  assert (UnL : u * nL <= nL * / 10000000) by nra.
  apply Rabs_le_inv in D2.
  assert (B3 : Rabs (m - L) <= nL + u * nL + eta + L) by (apply Rabs_le; lra).
  destruct (sub_err (mul (of_Z (Z.of_nat n)) lh) lh F2 Fp) as (F3 & e3 & He3 & E3); [fold m L; lra|]. fold m L in E3. set (d := fval (sub (mul (of_Z (Z.of_nat n)) lh) lh)) in *.
  assert (D3 := abs_mul1 (m - L) e3 _ B3 He3). rewrite <- E3 in D3. apply Rabs_le_inv in D3.
  assert (B3u : u * (nL + u * nL + eta + L) <= (nL + u * nL + eta + L) * / 10000000) by (assert (0 <= nL + u * nL + eta + L) by nra; nra).
  apply Rabs_le_inv in B3.
  assert (B4 : Rabs (d + fval h) <= 2 * (nL + L + fval h + eta)) by (apply Rabs_le; lra).
  destruct (add_err (sub (mul (of_Z (Z.of_nat n)) lh) lh) h F3 Fh) as (F4 & e4 & He4 & E4); [fold d; lra|]. fold d in E4.
  unfold measured. fold lh. split; [exact F4|]. set (v := fval (add (sub (mul (of_Z (Z.of_nat n)) lh) lh) h)) in *.
  assert (D4 := abs_mul1 (d + fval h) e4 _ B4 He4). rewrite <- E4 in D4. apply Rabs_le_inv in D4.
  (* both *)
  apply Rabs_le_inv in E1. apply Rabs_le_inv in DL.
  assert (Uv : u = / 2 ^ 53) by apply u_val.
  assert (E8 : / 2 ^ 50 = 8 * u).
  { rewrite Uv. replace 53%nat with (50 + 3)%nat by reflexivity. rewrite pow_add, Rinv_mult. simpl (2 ^ 3). field. }
  assert (E0 : 16 * P20 * eta <= / 2 ^ 1000).
  { rewrite eta_val. replace 1075%nat with (1000 + 75)%nat by reflexivity. rewrite pow_add, Rinv_mult. assert (A := Rinv_0_lt_compat _ (pow2_pos 1000)). assert (A5 := Rinv_0_lt_compat _ (pow2_pos 75)).
    assert (X : 16 * P20 * / 2 ^ 75 <= 1).
    { apply (Rmult_le_reg_r (2 ^ 75)); [apply pow2_pos|]. rewrite Rmult_assoc, Rinv_l by (apply pow_nonzero; lra). unfold P20. assert (16 * 2 ^ 20 <= 1 * 2 ^ 75) by (simpl; lra). lra. }
    nra. }
  assert (W : 4 * P20 * u <= / 1000).
  { rewrite Uv. unfold P20. apply (Rmult_le_reg_r (2 ^ 53)); [apply pow2_pos|]. rewrite Rmult_assoc, Rinv_l by (apply pow_nonzero; lra). assert (4 * 2 ^ 20 <= / 1000 * 2 ^ 53) by (simpl; lra). lra. }
  rewrite plus_INR in E1. unfold height_error. rewrite E8, !plus_INR. fold hl. replace (INR 8) with 8 by (simpl; ring). replace (INR 1) with 1 in * by (simpl; ring).
  set (k := INR n) in *. set (Y := fval y) in *. set (H := fval h) in *.
  set (B := Y + (k + 1) * hl + H).
  (* L in terms of hl *)
  assert (KU : 0 <= (k + 1) * u <= / 1000) by (split; [apply Rmult_le_pos; lra|apply (Rle_trans _ (P20 * u)); [apply Rmult_le_compat_r; lra|lra]]).
  assert (K1 : (k + 1) * (u * hl) <= / 1000 * hl) by (rewrite <- Rmult_assoc; apply Rmult_le_compat_r; [lra|apply KU]).
  assert (K2 : (k + 1) * eta <= P20 * eta) by (apply Rmult_le_compat_r; lra).
  assert (T1 : nL + L <= (k + 1) * hl + / 1000 * hl + P20 * eta).
  { replace (nL + L) with ((k + 1) * L) by (unfold nL; ring). assert (G : (k + 1) * L <= (k + 1) * (hl + u * hl + eta)) by (apply Rmult_le_compat_l; lra). lra. }
  set (X := Y + nL + L + H). assert (X0 : 0 <= X) by (unfold X; lra).
  assert (Kh : hl <= (k + 1) * hl) by (assert (0 <= k * hl) by (apply Rmult_le_pos; lra); lra).
  assert (TX : X <= 2 * B + P20 * eta) by (unfold X, B; lra).
  assert (TX' : 2 * ((k + 1) * u) * X <= 2 * ((k + 1) * u) * (2 * B + P20 * eta)) by (apply Rmult_le_compat_l; [lra|exact TX]).
  assert (TX2 : u * X <= u * (2 * B + P20 * eta)) by (apply Rmult_le_compat_l; lra).
  assert (W1 : 2 * (1 + k) * u * (Y + nL) <= 2 * ((k + 1) * u) * X) by (replace (2 * (1 + k) * u) with (2 * ((k + 1) * u)) by ring; apply Rmult_le_compat_l; [lra|unfold X; lra]).
  assert (W2 : u * nL <= u * X) by (apply Rmult_le_compat_l; unfold X; lra).
  assert (UE : u * eta <= eta * / 1000) by (rewrite (Rmult_comm u); apply Rmult_le_compat_l; lra).
  assert (W3 : u * (nL + u * nL + eta + L) <= 2 * (u * X) + eta) by (assert (u * (nL + u * nL + eta + L) <= u * (2 * X + eta)) by (apply Rmult_le_compat_l; [lra|unfold X in *; lra]); lra).
  assert (W4 : u * (2 * (nL + L + H + eta)) <= 2 * (u * X) + eta) by (assert (u * (2 * (nL + L + H + eta)) <= u * (2 * X + 2 * eta)) by (apply Rmult_le_compat_l; [lra|unfold X; lra]); lra).
  assert (W5 : u * hl <= u * B) by (apply Rmult_le_compat_l; [lra|unfold B; lra]).
  assert (B0 : 0 <= B) by (unfold B; lra).
  assert (PE0 : 0 <= P20 * eta) by (apply Rmult_le_pos; lra).
  assert (W6 : u * (P20 * eta) <= / 1000 * (P20 * eta)) by (apply Rmult_le_compat_r; lra).
  assert (W7 : (k + 1) * u * (P20 * eta) <= / 1000 * (P20 * eta)) by (apply Rmult_le_compat_r; lra).
  assert (PE : eta <= P20 * eta) by (rewrite <- (Rmult_1_l eta) at 1; apply Rmult_le_compat_r; lra).
  apply Rabs_le. replace ((k + 8) * (8 * u) * B) with (8 * ((k + 1) * u * B) + 56 * (u * B)) by ring.
  replace (2 * ((k + 1) * u) * (2 * B + P20 * eta)) with (4 * ((k + 1) * u * B) + 2 * ((k + 1) * u * (P20 * eta))) in TX' by ring.
  replace (u * (2 * B + P20 * eta)) with (2 * (u * B) + u * (P20 * eta)) in TX2 by ring.
  replace ((fval l - 1) * H) with (hl - H) by (unfold hl, H; ring).
  assert (KB : 0 <= (k + 1) * u * B) by (apply Rmult_le_pos; [lra|exact B0]). assert (UB : 0 <= u * B) by (apply Rmult_le_pos; lra).
  lra.
Qed.
Lemma written_height_float : forall (eng : Engine NumF64) mut hyph tw fh font, float_printer eng tw fh font ->
  forall callback (h : NumF64) iss width (sty : Styles NumF64) (s s0 s' : PS NumF64 eng),
  (fh (SFont sty) = h /\ forall f, In f (text_fonts mut (beqb (HAlign (SAlign sty)) ($"block")) (currentPage (ps_eng s)) sty iss) -> fh f = h) ->
  currentPage (ps_eng s0) = currentPage (ps_eng s) ->
  writeTextFnc callback mut hyph sty iss width sty s = Ok tt s' ->
  let n := measured_lines mut hyph iss width sty s0 in
  let l := LineSpacing (SDim sty) in
  let y := snd (getXY (ps_eng s)) in
  let y' := snd (getXY (ps_eng s')) in
  let th := fst (textHeightFnc mut hyph sty iss width sty s0) in
  (Z.of_nat n < 2 ^ 20)%Z -> moderate y -> 0 <= fval y -> moderate h -> 0 <= fval h -> moderate l -> 0 <= fval l -> moderate (mul h l) ->
  fin y' /\ fin th /\ Rabs (fval y' - (fval y + (fval th + (fval l - 1) * fval h))) <= height_error n (fval y) (fval h) (fval l).
Proof.
  intros eng mut hyph tw fh font W callback h iss width sty s s0 s' Hf Hp H n l y y' th Hn My Py Mh Ph Ml Pl Mp.
  assert (PL : 0 <= fval (mul h l)).
  { destruct Mh as [Fh Bh], Ml as [Fl Bl]. rewrite Rabs_pos_eq in Bh, Bl by assumption. destruct (mul_ok h l Fh Fl) as [_ E].
    - apply (rnd_small _ 1000); [lia|]. rewrite Rabs_pos_eq by (apply Rmult_le_pos; assumption). apply (Rle_trans _ (2 ^ 200 * 2 ^ 200)); [apply Rmult_le_compat; assumption|]. rewrite <- pow_add. apply Rle_pow; [lra|lia].
    - rewrite E. apply rnd_nonneg, Rmult_le_pos; assumption. }
  destruct (written_down mut hyph tw fh font W callback h iss width sty s s0 s' PL Hf Hp H) as [E1 E2]. fold n l y y' th in E1, E2. rewrite E1, E2. exact (heights_agree n y h l Hn My Py Mh Ph Ml Pl Mp).
Qed.
