(** Block text over the rationals, and engines that measure by the font. *)
From Coq Require Import QArith Lia Lqa.
From Verif Require Import GoStr GoFmt GoStrFacts Num Style Class Text Instr Engine EngineFacts Layout Lines LinesSpec LinesFacts LinesLink LinesView LinesThms WriteSpec WriteFacts DrawFacts RefEngine.
Local Open Scope nat_scope.
Local Notation Q := QArith_base.Q.

Lemma trim_free : forall w : bytes, (forall c, In c w -> c <> sp) -> trim is_sp w = w /\ trim is_sp (sp :: w) = w.
Proof.
  intros w H. assert (L : forall u : bytes, (forall c, In c u -> c <> sp) -> trim_left is_sp u = u).
  { intros [|c u] Hu; [reflexivity|]. cbn [trim_left]. destruct (is_sp c) eqn:E; [|reflexivity]. exfalso. apply (Hu c (or_introl eq_refl)). apply Ascii.eqb_eq. exact E. }
  assert (T : trim is_sp w = w).
  { unfold trim, trim_right. rewrite (L w H), L, rev_involutive; [reflexivity|]. intros c Hc. apply H. apply in_rev. exact Hc. }
  split; [exact T|]. exact T.
Qed.

Lemma q_none : forall a b : Q, (a == a + inject_Z (Z.of_nat 0) * b)%Q.
Proof. intros. change (inject_Z (Z.of_nat 0)) with 0%Q. ring. Qed.
Lemma q_next : forall (a b h : Q) n, (a + b * h + inject_Z (Z.of_nat n) * (b * h) == a + inject_Z (Z.of_nat (S n)) * (b * h))%Q.
Proof. intros. rewrite Nat2Z.inj_succ, <- Z.add_1_r, inject_Z_plus. ring. Qed.
Lemma q_height : forall (a n l h : Q), (a + n * (l * h) == a + (n * (h * l) - h * l + h + (l - 1) * h))%Q.
Proof. intros. ring. Qed.
Section Q.
Context {eng : Engine NumQ}.
Variable mut : Styled NumQ -> Styles NumQ -> Styles NumQ.
Variable hyph : bytes -> list bytes.
Local Notation PS := (PS NumQ eng).

Lemma block_fit : page_stable (eng:=eng) -> forall iss width sty (s : PS), let '(lines, _) := textLinesHyphenated mut hyph iss width sty s in
  forall l, In l lines -> 2 <= List.length (l_items l) -> (l_width l <= width)%Q.
Proof.
  intros Hpage iss width sty s. destruct (textLinesHyphenated_rules mut hyph Hpage iss width sty s) as (lines & gs & -> & L & _ & [B1 B2 B3]). intros l Hl Hn.
  destruct (Forall2_in_l _ _ _ _ _ L l Hl) as (g & Hg & [L1 L2] & _). rewrite L1, items_length in Hn. destruct (two_frags _ Hn) as (pre & f & E & Hp).
  destruct (frag_in_group _ _ _ _ B2 g pre _ [] Hg E) as (p & Hf). rewrite L2, E. unfold total. rewrite total_snoc. fold (total (F:=NumQ) pre). destruct f as [st w m|st w a b m|st r m].
  - assert (K : overflows width (total (F:=NumQ) pre) w m = false) by (destruct pre as [|f0 pre]; [congruence|exact Hf]). unfold overflows in K. cbn in K |- *.
    apply Qlt_le_weak, Qnot_le_lt. intro Kl. apply Qle_bool_iff in Kl. cbn in Kl. rewrite Kl in K. discriminate K.
  - destruct Hf as (_ & _ & Hf & _). unfold head_fits in Hf. cbn in Hf |- *. apply Qle_bool_iff in Hf. cbn in Hf. lra.
  - destruct Hf as (-> & _). congruence.
Qed.

(** ** Engines that measure by the font *)
Variable tw : Font NumQ -> bytes -> Q.
Hypothesis Measures : forall f (e : est eng) s, textWidth (simple (ChangeFont f) e) s = tw f s.
Hypothesis Stable : page_stable (eng:=eng).
Lemma tokens_measure : forall blank n sty iss (e : est eng) st w m, In (TWord st w m) (tokens mut blank n sty iss e) -> forall x, m x = tw (SFont st) x.
Proof.
  intros blank n sty. induction iss as [|is iss IH]; intros e st w m H; [destruct H|].
  assert (K : forall st' ws (e : est eng), In (TWord st w m) match match ws with [] => if blank then [[]] else [] | _ => ws end with [] => tokens mut blank n sty iss e
     | ws => map (fun w => TWord st' w (textWidth (simple (ChangeFont (SFont st')) e))) ws ++ tokens mut blank n sty iss (simple (ChangeFont (SFont st')) e) end ->
     forall x, m x = tw (SFont st) x).
  { intros st' ws0 e0 H0. destruct (match ws0 with [] => if blank then [[]] else [] | _ => ws0 end) as [|w0 ws]; [exact (IH _ _ _ _ H0)|]. apply in_app_or in H0 as [H0|H0]; [|exact (IH _ _ _ _ H0)].
    apply in_map_iff in H0 as (w' & E & Hw). injection E as <- _ <-. intros x. apply Measures. }
  cbn [tokens] in H. destruct is; cbn [reading] in H; try exact (IH _ _ _ _ H).
  - exact (K _ _ _ H).
  - exact (K _ _ _ H).
  - destruct H as [H|H]; [discriminate H|exact (IH _ _ _ _ H)].
Qed.
Lemma frag_word_width : forall ts width gs, broken_into hyph width ts gs ->
  (forall st w m, In (TWord st w m) ts -> (forall x, m x = tw (SFont st) x) /\ forall c, In c w -> c <> sp) ->
  forall g f b, In g gs -> In f (g_frags g) -> frag_pure f = word_width tw (frag_item b f).
Proof.
  intros ts width gs [B1 B2 B3] Ht g f b Hg Hf.
  assert (HT : forall g st w m f, In g gs -> In f (g_frags g) -> In (TWord st w m) (frag_tokens f) -> In (TWord st w m) ts).
  { intros g0 st w m f0 H1 H2 H3. rewrite <- B1. apply in_flat_map. exists g0. split; [exact H1|]. unfold group_tokens. apply in_or_app. left. apply in_flat_map. exists f0. split; assumption. }
  destruct f as [st w m|st w a b' m|st r m]; cbn [frag_pure frag_item]; unfold word_width; cbn [i_sty i_text].
  - destruct (Ht st w m (HT g st w m _ Hg Hf (or_introl eq_refl))) as [M Fr]. rewrite M. destruct (trim_free w Fr) as [T1 T2]. destruct b; [rewrite T1|rewrite T2]; reflexivity.
  - destruct (Ht st w m (HT g st w m _ Hg Hf (or_introl eq_refl))) as [M Fr]. apply M.
  - apply in_split in Hg as (x & y & Eg). apply in_split in Hf as (pre & post & Ef).
    destruct (proj1 (proj1 (groups_at _ _ _ _ B2 x g y Eg) pre _ post Ef)) as (_ & p & w & a & b' & Ep & _). apply last_in in Ep.
    assert (Hm : forall x, m x = tw (SFont st) x).
    { apply (Ht st w m). apply (HT _ st w m (Head st w a b' m) ltac:(rewrite Eg; apply in_or_app; left; exact Ep)); [cbn; apply in_or_app; right; left; reflexivity|left; reflexivity]. }
    rewrite Hm. f_equal. destruct b; [reflexivity|]. unfold trim. cbn [trim_left]. reflexivity.
Qed.
Lemma sum_words : forall fs (b : bool), (forall f b, In f fs -> frag_pure f = word_width tw (frag_item b f)) ->
  (sum_of (F:=NumQ) frag_pure fs == words_width tw (if b then items_of fs else map (frag_item false) fs))%Q.
Proof.
  assert (S : forall l a, (fold_left (fun a x => add a (frag_pure (F:=NumQ) x)) l a == a + fold_right (fun f s => frag_pure (F:=NumQ) f + s)%Q 0%Q l)%Q).
  { induction l as [|x l IH]; intros a; cbn [fold_left fold_right]; [lra|]. rewrite IH. cbn. lra. }
  assert (M : forall fs, (forall f b, In f fs -> frag_pure f = word_width tw (frag_item b f)) ->
    words_width tw (map (frag_item false) fs) = fold_right (fun f s => frag_pure (F:=NumQ) f + s)%Q 0%Q fs).
  { induction fs as [|f fs IH]; intros H; [reflexivity|]. cbn [map words_width fold_right]. unfold words_width in IH. rewrite (IH (fun f b Hf => H f b (or_intror Hf))), (H f false (or_introl eq_refl)). reflexivity. }
  intros fs b H. unfold sum_of. rewrite S. change (@zero NumQ) with 0%Q. rewrite Qplus_0_l. destruct b; [|rewrite (M fs H); reflexivity].
  destruct fs as [|f fs]; [reflexivity|]. cbn [items_of words_width fold_right]. assert (Mf := M fs (fun f b Hf => H f b (or_intror Hf))). unfold words_width in Mf. rewrite Mf, (H f true (or_introl eq_refl)). reflexivity.
Qed.
Lemma block_pure : forall iss width sty (s : PS), let '(lines, _) := textLinesHyphenated mut hyph iss width sty s in
  Forall (fun l : textLine NumQ => (l_pure l == words_width tw (l_items l))%Q) lines.
Proof.
  intros iss width sty s. destruct (textLinesHyphenated_rules mut hyph Stable iss width sty s) as (lines & gs & -> & L & _ & B). apply Forall_forall. intros l Hl.
  destruct (Forall2_in_l _ _ _ _ _ L l Hl) as (g & Hg & [L1 L2] & L3). rewrite L3, L1. apply (sum_words (g_frags g) true). intros f b Hf.
  apply (frag_word_width _ _ _ B) with (g := g); [|exact Hg|exact Hf]. intros st w m Hin. split; [exact (tokens_measure _ _ _ _ _ _ _ _ Hin)|exact (tokens_free mut _ _ _ _ _ _ _ _ Hin)].
Qed.

End Q.

(** ** Writing on engines that measure by the font *)
Section Writer.
Context {eng : Engine NumQ}.
Variable mut : Styled NumQ -> Styles NumQ -> Styles NumQ.
Variable hyph : bytes -> list bytes.
Local Notation PS := (PS NumQ eng).
Variables (tw : Font NumQ -> bytes -> Q) (fh : Font NumQ -> Q) (font : est eng -> Font NumQ).
Hypothesis W : writer eng tw fh font.
Lemma writer_stable : page_stable (eng:=eng).
Proof. intros f e. exact (proj1 (W_page _ _ _ _ W e) f). Qed.
Lemma writer_measures : forall f (e : est eng) s, textWidth (simple (ChangeFont f) e) s = tw f s.
Proof. intros f e s. rewrite (W_width _ _ _ _ W), (proj1 (W_set _ _ _ _ W f e)). reflexivity. Qed.
Variable callback : cb -> M eng unit.
Lemma write_runs : forall t (s s' : PS), write_text callback t s = Ok tt s' ->
  forall f xy, font (ps_eng s) = f -> getXY (ps_eng s) = xy ->
  font (ps_eng s') = f /\ (fst (getXY (ps_eng s')) == fst xy + tw f t)%Q /\ snd (getXY (ps_eng s')) = snd xy.
Proof.
  intros t s s' H f xy <- <-. unfold write_text, command in H. destruct (W_write _ _ _ _ W t (ps_eng s)) as (e' & E & E1 & E2 & E3). rewrite E in H. cbn in H. injection H as <-. cbn.
  rewrite <- (W_width _ _ _ _ W). split; [exact E1|split; [exact E2|exact E3]].
Qed.
Lemma write_spaced_filled : forall gap items (s s' : PS), write_spaced callback gap items s = Ok tt s' ->
  exists xs, wrote s s' (moved_items (F:=NumQ) items xs) /\ forall x, (x == fst (getXY (ps_eng s)))%Q -> Forall (fun x' => 0 <= x')%Q xs -> evenly tw gap x items xs.
Proof.
  intros gap. induction items as [|it items IH]; intros s s' H; cbn [write_spaced] in H.
  - injection H as <-. exists []. split; [apply wrote_nil|]. intros x _ _. exact I.
  - apply bind_ok in H as ([] & s1 & H1 & H). apply lift_ok in H1. rewrite changeFont_eq in H1. injection H1 as <-.
    apply bind_ok in H as ([] & s2 & H2 & H). apply bind_ok in H as (xy & s3 & H3 & H). apply lift_ok in H3. injection H3 as <- <-.
    apply bind_ok in H as ([] & s4 & H4 & H). apply lift_ok in H4. rewrite emit_eq in H4. injection H4 as <-.
    destruct (IH _ _ H) as (xs & Wr & Ev). destruct (W_set _ _ _ _ W (SFont (i_sty it)) (ps_eng s)) as [F1 F2].
    destruct (write_runs _ _ _ H2 _ _ F1 F2) as (_ & X & _).
    exists (add (fst (getXY (ps_eng s2))) gap :: xs). split.
    + unfold moved_items. cbn [combine flat_map app fst snd].
      apply (wrote_cons _ (font_changed (SFont (i_sty it)) s)); [apply wrote_font|].
      apply (wrote_cons _ s2); [exact (wrote_command _ _ _ _ _ H2)|]. apply (wrote_cons _ (emitted (SetX (add (fst (getXY (ps_eng s2))) gap)) s2)); [apply wrote_emit|exact Wr].
    + intros x Hx Hp. inversion Hp as [|? ? Hp1 Hp2]; subst. cbn [evenly]. split; [cbn; unfold word_width; rewrite Hx, X; reflexivity|]. apply Ev; [|exact Hp2]. rewrite emitted_eng, (proj2 (proj2 (W_x _ _ _ _ W _ _)) Hp1). reflexivity.
Qed.
Lemma lines_filled : forall width x sty lines (s s' : PS), Forall (fun l : textLine NumQ => (l_pure l == words_width tw (l_items l))%Q) lines ->
  write_lines_h callback width x sty lines s = Ok tt s' ->
  exists css, Forall2 (filled_cmds tw width sty x) lines css /\ wrote s s' (List.concat css).
Proof.
  intros width x sty. induction lines as [|l lines IH]; intros s s' P H; cbn [write_lines_h] in H.
  - injection H as <-. exists []. split; [constructor|apply wrote_nil].
  - inversion P as [|? ? P1 P2]; subst. apply bind_ok in H as ([] & s1 & H1 & H). apply lift_ok in H1. rewrite emit_eq in H1. injection H1 as <-.
    apply bind_ok in H as ([] & s2 & H2 & H). apply bind_ok in H as ([] & s3 & H3 & H). apply lift_ok in H3. rewrite emit_eq in H3. injection H3 as <-.
    destruct (IH _ _ P2 H) as (css & C & Wr).
    assert (exists cs, filled_cmds tw width sty x l cs /\ wrote s (emitted (LineFeed (LineSpacing (SDim sty))) s2) cs) as (cs & C1 & W1).
    { assert (Es : ((Z.of_nat (List.length (l_items l)) - 1 <? 1)%Z || l_paragraph l) = negb (stretched l)).
      { unfold stretched. rewrite negb_andb, negb_involutive. f_equal. destruct (Nat.leb_spec 2 (List.length (l_items l))), (Z.ltb_spec (Z.of_nat (List.length (l_items l)) - 1) 1); try reflexivity; lia. }
      rewrite Es in H2. unfold filled_cmds. destruct (stretched l) eqn:St; cbn [negb] in H2.
      - apply write_spaced_filled in H2 as (xs & Wx & Ev). eexists. split; [intros _; eexists _, xs; split; [reflexivity|split]|].
        + intros Hx Hp. apply Ev; [|exact Hp]. rewrite emitted_eng, (proj2 (proj2 (W_x _ _ _ _ W _ _)) Hx). reflexivity.
        + cbn. rewrite <- P1. unfold stretched in St. apply andb_prop in St as [St _]. apply Nat.leb_le in St.
          assert (N : ~ (inject_Z (Z.of_nat (List.length (l_items l)) - 1) == 0)%Q).
          { intro K. unfold Qeq in K. cbn in K. lia. }
          field. exact N.
        + apply (wrote_cons _ (emitted (SetX x) s)); [apply wrote_emit|]. apply (wrote_app _ s2); [exact Wx|apply wrote_emit].
      - apply (write_items_wrote callback) in H2. eexists. split; [intros K; discriminate K|].
        apply (wrote_cons _ (emitted (SetX x) s)); [apply wrote_emit|]. apply (wrote_app _ s2); [exact H2|apply wrote_emit]. }
    exists (cs :: css). split; [constructor; assumption|]. cbn [List.concat]. exact (wrote_app _ _ _ _ _ W1 Wr).
Qed.

Lemma text_filled : forall iss width sty (s s' : PS), writeTextHyphenated callback mut hyph iss width sty s = Ok tt s' ->
  exists lines s1 css, textLinesHyphenated mut hyph iss width sty (text_state sty s) = (lines, s1) /\
    fst (getXY (ps_eng s1)) = fst (getXY (ps_eng s)) /\
    Forall2 (filled_cmds tw width sty (fst (getXY (ps_eng s)))) lines css /\
    wrote s s' (start_cmds (F:=NumQ) sty (text_fonts mut true (currentPage (ps_eng s)) sty iss) ++ List.concat css).
Proof.
  intros iss width sty s s' H. unfold writeTextHyphenated in H. apply bind_ok in H as ([] & s1 & H1 & H). apply lift_ok in H1. rewrite emit_eq in H1. injection H1 as <-.
  apply bind_ok in H as ([] & s1 & H1 & H). apply lift_ok in H1. unfold set_text_color in H1. rewrite emit_eq in H1. injection H1 as <-.
  rewrite <- text_state_eq in H.
  apply bind_ok in H as (lines & s2 & H2 & H). apply lift_ok in H2. apply bind_ok in H as (xy & s3 & H3 & H). apply lift_ok in H3. injection H3 as <- <-.
  assert (P := block_pure mut hyph tw writer_measures writer_stable iss width sty (text_state sty s)). rewrite H2 in P.
  assert (E2 : s2 = fonts_changed (text_fonts mut true (currentPage (ps_eng (text_state sty s))) sty iss) (text_state sty s)).
  { destruct (textLinesHyphenated_rules mut hyph writer_stable iss width sty (text_state sty s)) as (ls & gs & E & _). rewrite H2 in E. injection E as _ ->. reflexivity. }
  assert (Pg : currentPage (ps_eng (text_state sty s)) = currentPage (ps_eng s)).
  { rewrite text_state_eq. rewrite !emitted_eng. rewrite (proj2 (W_page _ _ _ _ W _)), (proj1 (W_page _ _ _ _ W _)). reflexivity. }
  assert (X : fst (getXY (ps_eng s2)) = fst (getXY (ps_eng s))).
  { assert (Fs : forall fs (p : PS), getXY (ps_eng (fonts_changed fs p)) = getXY (ps_eng p)).
    { induction fs as [|f fs IH]; intros p; [reflexivity|]. cbn [fonts_changed fold_left]. unfold fonts_changed in IH. rewrite IH, font_eng. exact (proj2 (W_set _ _ _ _ W _ _)). }
    rewrite E2, Fs. rewrite text_state_eq. rewrite !emitted_eng. rewrite (proj2 (W_color _ _ _ _ W _ _ _ _)), (proj2 (W_set _ _ _ _ W _ _)). reflexivity. }
  rewrite X in H. destruct (lines_filled _ _ _ _ _ _ P H) as (css & C & Wr).
  exists lines, s2, css. split; [exact H2|]. split; [exact X|]. split; [exact C|]. unfold start_cmds. cbn [app].
  apply (wrote_cons _ (emitted (ChangeFont (SFont sty)) s)); [apply wrote_emit|]. apply (wrote_cons _ (text_state sty s)); [rewrite text_state_eq; apply wrote_emit|].
  apply (wrote_app _ s2); [|exact Wr]. rewrite E2, Pg. apply wrote_fonts.
Qed.

(** ** Heights *)
Lemma sbind_run : forall A B (m : St eng A) (k : A -> St eng B) s a s', m s = (a, s') -> sbind m k s = k a s'.
Proof. intros A B m k s a s' H. unfold sbind. rewrite H. reflexivity. Qed.
Definition same (s1 s2 : PS) : Prop := font (ps_eng s1) = font (ps_eng s2) /\ currentPage (ps_eng s1) = currentPage (ps_eng s2).
Lemma same_width : forall s1 s2, same s1 s2 -> forall x, textWidth (ps_eng s1) x = textWidth (ps_eng s2) x.
Proof. intros s1 s2 [S _] x. rewrite !(W_width _ _ _ _ W), S. reflexivity. Qed.
Lemma same_font : forall s1 s2 f, same s1 s2 -> same (font_changed f s1) (font_changed f s2).
Proof.
  intros s1 s2 f [_ S]. split; rewrite !font_eng.
  - exact (eq_trans (proj1 (W_set _ _ _ _ W _ _)) (eq_sym (proj1 (W_set _ _ _ _ W _ _)))).
  - exact (eq_trans (proj1 (W_page _ _ _ _ W _) f) (eq_trans S (eq_sym (proj1 (W_page _ _ _ _ W _) f)))).
Qed.
Lemma place_words_same : forall width st ws lines curr s1 s2, same s1 s2 ->
  exists r, place_words (eng:=eng) width st ws lines curr s1 = (r, s1) /\ place_words width st ws lines curr s2 = (r, s2).
Proof.
  intros width st. induction ws as [|w ws IH]; intros lines curr s1 s2 S; cbn [place_words]; [eexists; split; reflexivity|].
  rewrite !sbind_query, (same_width s1 s2 S). destruct (leb width _); apply IH; exact S.
Qed.
Lemma read_same : forall sty is s1 s2, same s1 s2 -> exists p, read_piece mut sty is s1 = (p, s1) /\ read_piece mut sty is s2 = (p, s2).
Proof.
  intros sty is s1 s2 [_ S]. destruct is; try (eexists; split; reflexivity); cbn [read_piece]; unfold sbind; rewrite !norm_eq, S; eexists; split; reflexivity.
Qed.
Lemma place_pieces_same : forall width sty iss lines curr s1 s2, same s1 s2 ->
  fst (place_pieces (eng:=eng) mut width sty iss lines curr s1) = fst (place_pieces mut width sty iss lines curr s2).
Proof.
  intros width sty. induction iss as [|is iss IH]; intros lines curr s1 s2 S; [reflexivity|]. cbn [place_pieces]. destruct (read_same sty is s1 s2 S) as (p & E1 & E2).
  rewrite (sbind_run _ _ _ _ _ _ _ E1), (sbind_run _ _ _ _ _ _ _ E2). destruct p as [|it|]; try (apply IH; exact S). destruct (i_text it) as [|c t]; [apply IH; exact S|].
  rewrite !sbind_font. destruct (place_words_same width (i_sty it) (Lines.words (c :: t)) lines curr _ _ (same_font s1 s2 (SFont (i_sty it)) S)) as (r & P1 & P2).
  rewrite (sbind_run _ _ _ _ _ _ _ P1), (sbind_run _ _ _ _ _ _ _ P2). apply IH. apply same_font. exact S.
Qed.
Lemma try_same : forall parts avail i s1 s2, same s1 s2 -> exists r, try_parts (eng:=eng) parts avail i s1 = (r, s1) /\ try_parts parts avail i s2 = (r, s2).
Proof.
  intros parts avail. induction i as [|i IH]; intros s1 s2 S; cbn [try_parts]; [eexists; split; reflexivity|]. rewrite !sbind_query, (same_width s1 s2 S).
  destruct (leb _ avail); [eexists; split; reflexivity|apply IH; exact S].
Qed.
Lemma place_words_h_same : forall width st ws lines curr s1 s2, same s1 s2 ->
  exists r, place_words_h (eng:=eng) hyph width st ws lines curr s1 = (r, s1) /\ place_words_h hyph width st ws lines curr s2 = (r, s2).
Proof.
  intros width st. induction ws as [|w ws IH]; intros lines curr s1 s2 S; cbn [place_words_h]; [eexists; split; reflexivity|].
  assert (Wd := same_width s1 s2 S). rewrite !sbind_query, !Wd. destruct (leb width _); [|rewrite !sbind_ret; apply IH; exact S].
  assert (exists h, tryHyphenate hyph width w (l_width curr) s1 = (h, s1) /\ tryHyphenate hyph width w (l_width curr) s2 = (h, s2)) as (h & T1 & T2).
  { unfold tryHyphenate. destruct (_ <? 2); [eexists; split; reflexivity|apply try_same; exact S]. }
  assert (exists r, forall s, s = s1 \/ s = s2 -> sbind (tryHyphenate hyph width w (l_width curr)) (fun h => match h with
    | None => sret (lines ++ [curr], @empty_line NumQ, w, textWidth (ps_eng s2) (sp :: w), textWidth (ps_eng s2) w)
    | Some (x1, x2) => sbind (query (fun e => textWidth e x1)) (fun w1 => sbind (query (fun e => textWidth e (trim is_sp x1))) (fun p1 =>
        sbind (query (fun e => textWidth e x2)) (fun w2 => sbind (query (fun e => textWidth e (trim is_sp x2))) (fun p2 =>
        sret (lines ++ [mkLine (l_items curr ++ [mkItem st x1]) (add (l_width curr) w1) (add (l_pure curr) p1) (l_paragraph curr)], @empty_line NumQ, x2, w2, p2)))))
    end) s = (r, s)) as (r & R).
  { destruct h as [[x1 x2]|]; eexists; intros s [->| ->]; first [rewrite (sbind_run _ _ _ _ _ _ _ T1)|rewrite (sbind_run _ _ _ _ _ _ _ T2)]; try reflexivity; rewrite !sbind_query, ?Wd; reflexivity. }
  rewrite (sbind_run _ _ _ _ _ _ _ (R s1 (or_introl eq_refl))), (sbind_run _ _ _ _ _ _ _ (R s2 (or_intror eq_refl))). destruct r as [[[[ls c] w'] a] b]. apply IH. exact S.
Qed.
Lemma place_pieces_h_same : forall width sty iss lines curr s1 s2, same s1 s2 ->
  fst (place_pieces_h (eng:=eng) mut hyph width sty iss lines curr s1) = fst (place_pieces_h mut hyph width sty iss lines curr s2).
Proof.
  intros width sty. induction iss as [|is iss IH]; intros lines curr s1 s2 S; [reflexivity|]. cbn [place_pieces_h]. destruct (read_same sty is s1 s2 S) as (p & E1 & E2).
  rewrite (sbind_run _ _ _ _ _ _ _ E1), (sbind_run _ _ _ _ _ _ _ E2). destruct p as [|it|]; try (apply IH; exact S).
  rewrite !sbind_font. destruct (place_words_h_same width (i_sty it) (Lines.words (i_text it)) lines curr _ _ (same_font s1 s2 (SFont (i_sty it)) S)) as (r & P1 & P2).
  rewrite (sbind_run _ _ _ _ _ _ _ P1), (sbind_run _ _ _ _ _ _ _ P2). apply IH. apply same_font. exact S.
Qed.
Lemma lines_same : forall iss width sty s1 s2, same s1 s2 ->
  fst (textLines (eng:=eng) mut iss width sty s1) = fst (textLines mut iss width sty s2) /\
  fst (textLinesHyphenated (eng:=eng) mut hyph iss width sty s1) = fst (textLinesHyphenated mut hyph iss width sty s2).
Proof.
  intros iss width sty s1 s2 S. unfold textLines, textLinesHyphenated, sbind.
  assert (A := place_pieces_same width sty iss [] empty_line s1 s2 S). assert (B := place_pieces_h_same width sty iss [] empty_line s1 s2 S).
  destruct (place_pieces _ _ _ _ _ _ s1) as [[l1 c1] p1], (place_pieces _ _ _ _ _ _ s2) as [[l2 c2] p2]. cbn in A. injection A as -> ->.
  destruct (place_pieces_h _ _ _ _ _ _ _ s1) as [[k1 d1] q1], (place_pieces_h _ _ _ _ _ _ _ s2) as [[k2 d2] q2]. cbn in B. injection B as -> ->. split; reflexivity.
Qed.

(** The fonts of the items. *)
Lemma tokens_fonts : forall blank n sty iss (e : est eng) st w m, In (TWord st w m) (tokens mut blank n sty iss e) -> In (SFont st) (text_fonts mut blank n sty iss).
Proof.
  intros blank n sty. induction iss as [|is iss IH]; intros e st w m H; [destruct H|].
  assert (K : forall st' ws (e : est eng), In (TWord st w m) match match ws with [] => if blank then [[]] else [] | _ => ws end with [] => tokens mut blank n sty iss e
     | ws => map (fun w => TWord st' w (textWidth (simple (ChangeFont (SFont st')) e))) ws ++ tokens mut blank n sty iss (simple (ChangeFont (SFont st')) e) end ->
     In (SFont st) (if negb blank && match ws with [] => true | _ => false end then text_fonts mut blank n sty iss else SFont st' :: text_fonts mut blank n sty iss)).
  { intros st' ws e0 H0. destruct ws as [|w0 ws].
    - destruct blank; cbn [negb andb]; [|exact (IH _ _ _ _ H0)]. apply in_app_or in H0 as [H0|H0]; [|right; exact (IH _ _ _ _ H0)].
      destruct H0 as [H0|[]]. injection H0 as <- _ _. left. reflexivity.
    - rewrite andb_false_r. apply in_app_or in H0 as [H0|H0]; [|right; exact (IH _ _ _ _ H0)]. apply in_map_iff in H0 as (w' & E & Hw). injection E as <- _ _. left. reflexivity. }
  cbn [tokens] in H. cbn [text_fonts]. destruct is; cbn [reading] in H |- *; try exact (IH _ _ _ _ H).
  - exact (K _ _ _ H).
  - exact (K _ _ _ H).
  - destruct H as [H|H]; [discriminate H|exact (IH _ _ _ _ H)].
Qed.
Lemma frag_sty : forall h ts width gs, broken_into h width ts gs -> forall (P : Styles NumQ -> Prop), (forall st w m, In (TWord st w m) ts -> P st) ->
  forall g f b, In g gs -> In f (g_frags g) -> P (i_sty (frag_item b f)).
Proof.
  intros h ts width gs [B1 B2 B3] P Ht g f b Hg Hf.
  assert (HT : forall g st w m f, In g gs -> In f (g_frags g) -> In (TWord st w m) (frag_tokens f) -> P st).
  { intros g0 st w m f0 H1 H2 H3. apply (Ht st w m). rewrite <- B1. apply in_flat_map. exists g0. split; [exact H1|]. unfold group_tokens. apply in_or_app. left. apply in_flat_map. exists f0. split; assumption. }
  destruct f as [st w m|st w a b' m|st r m]; cbn [frag_item i_sty].
  - apply (HT g st w m _ Hg Hf). left. reflexivity.
  - apply (HT g st w m _ Hg Hf). left. reflexivity.
  - apply in_split in Hg as (x & y & Eg). apply in_split in Hf as (pre & post & Ef).
    destruct (proj1 (proj1 (groups_at _ _ _ _ B2 x g y Eg) pre _ post Ef)) as (_ & p & w & a & b' & Ep & _). apply last_in in Ep.
    apply (HT _ st w m (Head st w a b' m) ltac:(rewrite Eg; apply in_or_app; left; exact Ep)); [cbn; apply in_or_app; right; left; reflexivity|left; reflexivity].
Qed.
Lemma in_items : forall fs it, In it (items_of (F:=NumQ) fs) -> exists b f, In f fs /\ it = frag_item b f.
Proof.
  intros [|f fs] it H; [destruct H|]. destruct H as [<-|H]; [exists true, f; split; [left; reflexivity|reflexivity]|].
  apply in_map_iff in H as (x & <- & Hx). exists false, x. split; [right; exact Hx|reflexivity].
Qed.
Variable hgt : Q.
Definition fonts_high (blank : bool) (sty : Styles NumQ) (iss : list (instr NumQ)) (n : Z) : Prop :=
  fh (SFont sty) = hgt /\ forall f, In f (text_fonts mut blank n sty iss) -> fh f = hgt.
Definition line_high (l : textLine NumQ) : Prop := forall it, In it (l_items l) -> fh (SFont (i_sty it)) = hgt.
Lemma fonts_end : forall fs (s : PS), (forall f, In f fs -> fh f = hgt) -> fh (font (ps_eng s)) = hgt ->
  fh (font (ps_eng (fonts_changed fs s))) = hgt /\ getXY (ps_eng (fonts_changed fs s)) = getXY (ps_eng s).
Proof.
  induction fs as [|f fs IH]; intros s H1 H2; [split; [exact H2|reflexivity]|]. cbn [fonts_changed fold_left].
  destruct (W_set _ _ _ _ W f (ps_eng s)) as [F1 F2]. destruct (IH (font_changed f s)) as [A B].
  - intros f' Hf'. apply H1. right. exact Hf'.
  - rewrite font_eng. exact (eq_trans (f_equal fh F1) (H1 f (or_introl eq_refl))).
  - split; [exact A|]. exact (eq_trans B F2).
Qed.
Lemma lines_high : forall iss width sty (s : PS), fonts_high false sty iss (currentPage (ps_eng s)) -> fh (font (ps_eng s)) = hgt ->
  exists lines s1, textLines mut iss width sty s = (lines, s1) /\ Forall line_high lines /\ fh (font (ps_eng s1)) = hgt /\ getXY (ps_eng s1) = getXY (ps_eng s).
Proof.
  intros iss width sty s [H1 H2] Hs. destruct (textLines_rules mut writer_stable iss width sty s) as (lines & gs & E & L & B). do 2 eexists. split; [exact E|].
  destruct (fonts_end (text_fonts mut false (currentPage (ps_eng s)) sty iss) s H2 Hs) as [A1 A2]. split; [|split; [exact A1|exact A2]].
  apply Forall_forall. intros l Hl it Hit. destruct (Forall2_in_l _ _ _ _ _ L l Hl) as (g & Hg & L1 & _). rewrite L1 in Hit. destruct (in_items _ _ Hit) as (b & f & Hf & ->).
  apply (frag_sty _ _ _ _ B (fun st => fh (SFont st) = hgt)) with (g := g); [|exact Hg|exact Hf]. intros st w m Hin. apply H2. exact (tokens_fonts _ _ _ _ _ _ _ _ Hin).
Qed.
Lemma lines_high_h : forall iss width sty (s : PS), fonts_high true sty iss (currentPage (ps_eng s)) -> fh (font (ps_eng s)) = hgt ->
  exists lines s1, textLinesHyphenated mut hyph iss width sty s = (lines, s1) /\ Forall line_high lines /\ fh (font (ps_eng s1)) = hgt /\ getXY (ps_eng s1) = getXY (ps_eng s).
Proof.
  intros iss width sty s [H1 H2] Hs. destruct (textLinesHyphenated_rules mut hyph writer_stable iss width sty s) as (lines & gs & E & L & _ & B). do 2 eexists. split; [exact E|].
  destruct (fonts_end (text_fonts mut true (currentPage (ps_eng s)) sty iss) s H2 Hs) as [A1 A2]. split; [|split; [exact A1|exact A2]].
  apply Forall_forall. intros l Hl it Hit. destruct (Forall2_in_l _ _ _ _ _ L l Hl) as (g & Hg & [L1 _] & _). rewrite L1 in Hit. destruct (in_items _ _ Hit) as (b & f & Hf & ->).
  apply (frag_sty _ _ _ _ B (fun st => fh (SFont st) = hgt)) with (g := g); [|exact Hg|exact Hf]. intros st w m Hin. apply H2. exact (tokens_fonts _ _ _ _ _ _ _ _ Hin).
Qed.
(** Writing the items of a line leaves the height of the cursor alone. *)
Definition level (s s' : PS) : Prop := snd (getXY (ps_eng s')) = snd (getXY (ps_eng s)) /\ (fh (font (ps_eng s)) = hgt -> fh (font (ps_eng s')) = hgt).
Lemma level_refl : forall s, level s s.
Proof. intros s. split; [reflexivity|tauto]. Qed.
Lemma level_trans : forall a b c, level a b -> level b c -> level a c.
Proof. intros a b c [A1 A2] [B1 B2]. split; [congruence|tauto]. Qed.
Lemma level_font : forall f s, fh f = hgt -> level s (font_changed f s).
Proof. intros f s H. destruct (W_set _ _ _ _ W f (ps_eng s)) as [F1 F2]. split; [exact (f_equal snd F2)|]. intros _. exact (eq_trans (f_equal fh F1) H). Qed.
Lemma level_x : forall x s, level s (emitted (SetX x) s).
Proof. intros x s. destruct (W_x _ _ _ _ W x (ps_eng s)) as [F1 [F2 _]]. split; [exact F2|]. intros H. exact (eq_trans (f_equal fh F1) H). Qed.
Lemma level_write : forall t s s', write_text callback t s = Ok tt s' -> level s s'.
Proof. intros t s s' H. destruct (write_runs t s s' H _ _ eq_refl eq_refl) as (A & _ & B). split; [exact B|]. intros K. exact (eq_trans (f_equal fh A) K). Qed.
Lemma level_items : forall items s s', (forall it, In it items -> fh (SFont (i_sty it)) = hgt) -> write_items callback items s = Ok tt s' -> level s s'.
Proof.
  induction items as [|it items IH]; intros s s' Hi H; cbn [write_items] in H; [injection H as <-; apply level_refl|].
  apply bind_ok in H as ([] & s1 & H1 & H). apply lift_ok in H1. rewrite changeFont_eq in H1. injection H1 as <-. apply bind_ok in H as ([] & s2 & H2 & H).
  apply (level_trans _ (font_changed (SFont (i_sty it)) s)); [apply level_font, Hi; left; reflexivity|]. apply (level_trans _ s2); [exact (level_write _ _ _ H2)|].
  apply IH; [|exact H]. intros x Hx. apply Hi. right. exact Hx.
Qed.
Lemma level_spaced : forall gap items s s', (forall it, In it items -> fh (SFont (i_sty it)) = hgt) -> write_spaced callback gap items s = Ok tt s' -> level s s'.
Proof.
  intros gap. induction items as [|it items IH]; intros s s' Hi H; cbn [write_spaced] in H; [injection H as <-; apply level_refl|].
  apply bind_ok in H as ([] & s1 & H1 & H). apply lift_ok in H1. rewrite changeFont_eq in H1. injection H1 as <-. apply bind_ok in H as ([] & s2 & H2 & H).
  apply bind_ok in H as (xy & s3 & H3 & H). apply lift_ok in H3. injection H3 as <- <-. apply bind_ok in H as ([] & s4 & H4 & H). apply lift_ok in H4. rewrite emit_eq in H4. injection H4 as <-.
  apply (level_trans _ (font_changed (SFont (i_sty it)) s)); [apply level_font, Hi; left; reflexivity|]. apply (level_trans _ s2); [exact (level_write _ _ _ H2)|].
  eapply level_trans; [apply level_x|]. apply (IH _ _ (fun x Hx => Hi x (or_intror Hx)) H).
Qed.
Lemma feed_line : forall (n : NumQ) s, (0 <= n * hgt)%Q -> fh (font (ps_eng s)) = hgt ->
  (snd (getXY (ps_eng (emitted (LineFeed n) s))) == snd (getXY (ps_eng s)) + n * hgt)%Q /\ fh (font (ps_eng (emitted (LineFeed n) s))) = hgt.
Proof.
  intros n s Hn H. destruct (W_feed _ _ _ _ W n (ps_eng s)) as [F1 F2]. rewrite (W_height _ _ _ _ W), H in F2. split; [exact (F2 Hn)|]. exact (eq_trans (f_equal fh F1) H).
Qed.
Lemma lines_down : forall width x (sty : Styles NumQ) lines s s', (0 <= LineSpacing (SDim sty) * hgt)%Q -> Forall line_high lines -> fh (font (ps_eng s)) = hgt -> write_lines callback width x sty lines s = Ok tt s' ->
  (snd (getXY (ps_eng s')) == snd (getXY (ps_eng s)) + inject_Z (Z.of_nat (List.length lines)) * (LineSpacing (SDim sty) * hgt))%Q.
Proof.
  intros width x sty. induction lines as [|l lines IH]; intros s s' Hn Hl Hs H; cbn [write_lines] in H; [injection H as <-; exact (q_none _ _)|]. inversion Hl as [|? ? Hl1 Hl2]; subst.
  apply bind_ok in H as ([] & s1 & H1 & H). apply lift_ok in H1. apply bind_ok in H as ([] & s2 & H2 & H).
  apply bind_ok in H as ([] & s3 & H3 & H). apply lift_ok in H3. rewrite emit_eq in H3. injection H3 as <-.
  assert (L : level s s2).
  { apply (level_trans _ s1); [|exact (level_items _ _ _ Hl1 H2)]. unfold align_line in H1. repeat (destruct (beqb _ _); [rewrite emit_eq in H1; injection H1 as <-; apply level_x|]). injection H1 as <-. apply level_refl. }
  destruct L as [L1 L2]. destruct (feed_line (LineSpacing (SDim sty)) s2 Hn (L2 Hs)) as [F1 F2]. rewrite (IH _ _ Hn Hl2 F2 H), F1, L1. exact (q_next _ _ _ _).
Qed.
Lemma lines_down_h : forall width x (sty : Styles NumQ) lines s s', (0 <= LineSpacing (SDim sty) * hgt)%Q -> Forall line_high lines -> fh (font (ps_eng s)) = hgt -> write_lines_h callback width x sty lines s = Ok tt s' ->
  (snd (getXY (ps_eng s')) == snd (getXY (ps_eng s)) + inject_Z (Z.of_nat (List.length lines)) * (LineSpacing (SDim sty) * hgt))%Q.
Proof.
  intros width x sty. induction lines as [|l lines IH]; intros s s' Hn Hl Hs H; cbn [write_lines_h] in H; [injection H as <-; exact (q_none _ _)|]. inversion Hl as [|? ? Hl1 Hl2]; subst.
  apply bind_ok in H as ([] & s1 & H1 & H). apply lift_ok in H1. rewrite emit_eq in H1. injection H1 as <-. apply bind_ok in H as ([] & s2 & H2 & H).
  apply bind_ok in H as ([] & s3 & H3 & H). apply lift_ok in H3. rewrite emit_eq in H3. injection H3 as <-.
  assert (L : level s s2).
  { eapply level_trans; [apply level_x|]. destruct (_ || _); [exact (level_items _ _ _ Hl1 H2)|exact (level_spaced _ _ _ _ Hl1 H2)]. }
  destruct L as [L1 L2]. destruct (feed_line (LineSpacing (SDim sty)) s2 Hn (L2 Hs)) as [F1 F2]. rewrite (IH _ _ Hn Hl2 F2 H), F1, L1. exact (q_next _ _ _ _).
Qed.
Lemma font_page : forall f (s : PS), currentPage (ps_eng (emitted (ChangeFont f) s)) = currentPage (ps_eng s) /\ font (ps_eng (emitted (ChangeFont f) s)) = f.
Proof. intros f s. split; [exact (proj1 (W_page _ _ _ _ W _) f)|exact (proj1 (W_set _ _ _ _ W _ _))]. Qed.
Lemma text_state_facts : forall sty (s : PS), currentPage (ps_eng (text_state sty s)) = currentPage (ps_eng s) /\ font (ps_eng (text_state sty s)) = SFont sty /\ getXY (ps_eng (text_state sty s)) = getXY (ps_eng s).
Proof.
  intros sty s. rewrite text_state_eq. destruct (font_page (SFont sty) s) as [A B]. repeat split.
  - exact (eq_trans (proj2 (W_page _ _ _ _ W _) _ _ _) A).
  - exact (eq_trans (proj1 (W_color _ _ _ _ W _ _ _ _)) B).
  - exact (eq_trans (proj2 (W_color _ _ _ _ W _ _ _ _)) (proj2 (W_set _ _ _ _ W _ _))).
Qed.
Lemma height_value : forall n sty (s1 : PS), fh (font (ps_eng s1)) = hgt ->
  (fst (lines_height n sty s1) == inject_Z (Z.of_nat n) * (hgt * LineSpacing (SDim sty)) - hgt * LineSpacing (SDim sty) + hgt)%Q.
Proof. intros n sty s1 H. unfold lines_height. rewrite !sbind_query, !(W_height _ _ _ _ W), H. reflexivity. Qed.
Lemma written_height : forall iss width (sty : Styles NumQ) (s s0 s' : PS), (0 <= LineSpacing (SDim sty) * hgt)%Q ->
  fonts_high (beqb (HAlign (SAlign sty)) ($"block")) sty iss (currentPage (ps_eng s)) -> currentPage (ps_eng s0) = currentPage (ps_eng s) ->
  writeTextFnc callback mut hyph sty iss width sty s = Ok tt s' ->
  (snd (getXY (ps_eng s')) == snd (getXY (ps_eng s)) + (fst (textHeightFnc mut hyph sty iss width sty s0) + (LineSpacing (SDim sty) - 1) * hgt))%Q.
Proof.
  intros iss width sty s s0 s' Hn Hf Hp H. unfold writeTextFnc, textHeightFnc in *. destruct (font_page (SFont sty) s0) as [P0 F0]. destruct (text_state_facts sty s) as (P1 & F1 & X1).
  assert (S : same (emitted (ChangeFont (SFont sty)) s0) (text_state sty s)) by (split; congruence).
  destruct (lines_same iss width sty _ _ S) as [S1 S2]. destruct (beqb (HAlign (SAlign sty)) ($"block")).
  - unfold writeTextHyphenated in H. apply bind_ok in H as ([] & s1 & H1 & H). apply lift_ok in H1. rewrite emit_eq in H1. injection H1 as <-.
    apply bind_ok in H as ([] & s1 & H1 & H). apply lift_ok in H1. unfold set_text_color in H1. rewrite emit_eq in H1. injection H1 as <-.
    rewrite <- text_state_eq in H.
    apply bind_ok in H as (lines & s2 & H2 & H). apply lift_ok in H2. apply bind_ok in H as (xy & s3 & H3 & H). apply lift_ok in H3. injection H3 as <- <-.
    destruct (lines_high_h iss width sty (text_state sty s)) as (ls & s1 & E & L & Hs1 & X2); [rewrite P1; exact Hf|rewrite F1; exact (proj1 Hf)|]. rewrite H2 in E. injection E as <- <-.
    rewrite (lines_down_h _ _ _ _ _ _ Hn L Hs1 H). unfold textHeightHyphenated. rewrite sbind_emit.
    destruct (lines_high_h iss width sty (emitted (ChangeFont (SFont sty)) s0)) as (ls & q & E & _ & Hq & _); [rewrite P0, Hp; exact Hf|rewrite F0; exact (proj1 Hf)|].
    unfold sbind. rewrite E in S2 |- *. rewrite H2 in S2. cbn in S2. subst ls. rewrite (height_value _ _ _ Hq), X2, X1. exact (q_height _ _ _ _).
  - unfold Lines.writeText in H. apply bind_ok in H as ([] & s1 & H1 & H). apply lift_ok in H1. rewrite emit_eq in H1. injection H1 as <-.
    apply bind_ok in H as ([] & s1 & H1 & H). apply lift_ok in H1. unfold set_text_color in H1. rewrite emit_eq in H1. injection H1 as <-.
    rewrite <- text_state_eq in H.
    apply bind_ok in H as (lines & s2 & H2 & H). apply lift_ok in H2. apply bind_ok in H as (xy & s3 & H3 & H). apply lift_ok in H3. injection H3 as <- <-.
    destruct (lines_high iss width sty (text_state sty s)) as (ls & s1 & E & L & Hs1 & X2); [rewrite P1; exact Hf|rewrite F1; exact (proj1 Hf)|]. rewrite H2 in E. injection E as <- <-.
    rewrite (lines_down _ _ _ _ _ _ Hn L Hs1 H). unfold textHeight. rewrite sbind_emit.
    destruct (lines_high iss width sty (emitted (ChangeFont (SFont sty)) s0)) as (ls & q & E & _ & Hq & _); [rewrite P0, Hp; exact Hf|rewrite F0; exact (proj1 Hf)|].
    unfold sbind. rewrite E in S1 |- *. rewrite H2 in S1. cbn in S1. subst ls. rewrite (height_value _ _ _ Hq), X2, X1. exact (q_height _ _ _ _).
Qed.
End Writer.
