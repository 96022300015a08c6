(** The words written for a text contain no line feeds (C98). *)
From Verif Require Import GoStr GoFmt GoStrFacts Num Style Class Text Instr Engine EngineFacts Layout Lines LinesSpec LinesFacts LinesLink LinesThms WriteSpec WriteFacts WriteThms PlaceSpec.
Local Open Scope nat_scope.

Section OneLine.
Context {F : Num} {eng : Engine F}.
Variable mut : Styled F -> Styles F -> Styles F.
Variable hyph : bytes -> list bytes.
Hypothesis Hh : forall w, one_line w -> Forall one_line (hyph w).
Local Notation PS := (PS F eng).

Lemma text_words_one_line : forall n t w, In w (text_words n t) -> one_line w.
Proof.
  intros n t w H K. unfold text_words in H. assert (G := words_blank_free (TextSpec.rectified_spec (replace_all t ($"{cp}") (itoa n))) [] (Forall_nil _)).
  rewrite Forall_forall in G. destruct (G w H) as [_ B]. rewrite Forall_forall in B. specialize (B lf K). discriminate B.
Qed.
Lemma tokens_one_line : forall blank n sty iss (e : est eng) st w m, In (TWord st w m) (tokens mut blank n sty iss e) -> one_line w.
Proof.
  intros blank n sty. induction iss as [|is iss IH]; intros e st w m H; [destruct H|].
  assert (K : forall st' t (e : est eng), In (TWord st w m) match match text_words n t with [] => if blank then [[]] else [] | _ => text_words n t end with [] => tokens mut blank n sty iss e
     | ws => map (fun w => TWord st' w (textWidth (simple (ChangeFont (SFont st')) e))) ws ++ tokens mut blank n sty iss (simple (ChangeFont (SFont st')) e) end -> one_line w).
  { intros st' t e0 H0. assert (W := text_words_one_line n t). destruct (text_words n t) as [|w0 ws].
    - destruct blank; [|exact (IH _ _ _ _ H0)]. apply in_app_or in H0 as [H0|H0]; [|exact (IH _ _ _ _ H0)].
      destruct H0 as [H0|[]]. injection H0 as _ <- _. intros [].
    - apply in_app_or in H0 as [H0|H0]; [|exact (IH _ _ _ _ H0)]. apply in_map_iff in H0 as (w' & E & Hw). injection E as _ <- _. exact (W w' Hw). }
  cbn [tokens] in H. destruct is; cbn [reading] in H; try exact (IH _ _ _ _ H).
  - exact (K _ _ _ H).
  - exact (K _ _ _ H).
  - destruct H as [H|H]; [discriminate H|exact (IH _ _ _ _ H)].
Qed.
Lemma one_line_sp : forall t, one_line t -> one_line (sp :: t).
Proof. intros t H [K|K]; [discriminate K|exact (H K)]. Qed.
Lemma one_line_concat : forall l, Forall one_line l -> one_line (List.concat l).
Proof. intros l H K. apply in_concat in K as (x & Hx & K). rewrite Forall_forall in H. exact (H x Hx K). Qed.
Lemma divided_one_line : forall w a b, divides hyph w a b -> one_line w -> one_line (List.concat a) /\ one_line (List.concat b).
Proof.
  intros w a b (E & _ & _) H. assert (K := Hh w H). rewrite E in K. apply Forall_app in K as [K1 K2]. split; apply one_line_concat; assumption.
Qed.
Lemma frags_one_line : forall ts width gs, broken_into hyph width ts gs -> (forall st w m, In (TWord st w m) ts -> one_line w) ->
  forall g f first, In g gs -> In f (g_frags g) -> one_line (i_text (frag_item (F:=F) first f)).
Proof.
  intros ts width gs [B1 B2 B3] Ht g f first Hg Hf.
  assert (HT : forall g st w m f, In g gs -> In f (g_frags g) -> In (TWord st w m) (frag_tokens f) -> In (TWord st w m) ts).
  { intros g0 st w m f0 H1 H2 H3. rewrite <- B1. apply in_flat_map. exists g0. split; [exact H1|]. unfold group_tokens. apply in_or_app. left. apply in_flat_map. exists f0. split; assumption. }
  assert (HD : forall g st w a b m, In g gs -> In (Head st w a b m) (g_frags g) -> one_line (List.concat a) /\ one_line (List.concat b)).
  { intros g0 st w a b m Hg0 Hf0. assert (T := Ht st w m (HT g0 st w m _ Hg0 Hf0 (or_introl eq_refl))).
    apply in_split in Hf0 as (pre & post & Ef). destruct (frag_in_group _ _ _ _ B2 g0 pre _ post Hg0 Ef) as (p & K). exact (divided_one_line _ _ _ (proj1 (proj2 K)) T). }
  destruct f as [st w m|st w a b m|st r m]; cbn [frag_item i_text].
  - assert (T := Ht st w m (HT g st w m _ Hg Hf (or_introl eq_refl))). destruct first; [exact T|exact (one_line_sp _ T)].
  - unfold head_text. apply one_line_sp. intro K. apply in_app_or in K as [K|[K|[]]]; [|discriminate K]. exact (proj1 (HD g st w a b m Hg Hf) K).
  - apply in_split in Hg as (x & y & Eg). apply in_split in Hf as (pre & post & Ef).
    destruct (proj1 (proj1 (groups_at _ _ _ _ B2 x g y Eg) pre _ post Ef)) as (_ & p & w & a & b & Ep & ->). apply last_in in Ep.
    assert (T := proj2 (HD _ st w a b m ltac:(rewrite Eg; apply in_or_app; left; exact Ep) ltac:(cbn; apply in_or_app; right; left; reflexivity))).
    destruct first; [exact T|exact (one_line_sp _ T)].
Qed.
Lemma items_of_in : forall (fs : list (frag F)) it, In it (items_of fs) -> exists first f, In f fs /\ it = frag_item first f.
Proof.
  intros [|f fs] it H; [destruct H|]. destruct H as [<-|H]; [exists true, f; split; [left; reflexivity|reflexivity]|].
  apply in_map_iff in H as (f' & <- & Hf). exists false, f'. split; [right; exact Hf|reflexivity].
Qed.
Lemma block_one_line : page_stable (eng:=eng) -> forall iss width sty (s : PS), let '(lines, _) := textLinesHyphenated mut hyph iss width sty s in
  forall l it, In l lines -> In it (l_items l) -> one_line (i_text it).
Proof.
  intros Hp iss width sty s. destruct (textLinesHyphenated_rules mut hyph Hp iss width sty s) as (lines & gs & -> & L & _ & B). intros l it Hl Hit.
  destruct (Forall2_in_l _ _ _ _ _ L l Hl) as (g & Hg & [L1 L2] & _). rewrite L1 in Hit. apply items_of_in in Hit as (first & f & Hf & ->).
  exact (frags_one_line _ _ _ B (fun st w m Hin => tokens_one_line _ _ _ _ _ st w m Hin) g f first Hg Hf).
Qed.
End OneLine.
Section Fonts.
Context {eng : Engine NumQ}.
Variable mut : Styled NumQ -> Styles NumQ -> Styles NumQ.
Local Notation PS := (PS NumQ eng).
Lemma tokens_fonts : forall blank n sty iss (e : est eng) st w m, In (TWord st w m) (tokens mut blank n sty iss e) -> In (SFont st) (fonts_of mut sty iss).
Proof.
  intros blank n sty. induction iss as [|is iss IH]; intros e st w m H; [destruct H|].
  assert (K : forall st' ws (e : est eng), In (TWord st w m) match match ws with [] => if blank then [[]] else [] | _ => ws end with [] => tokens mut blank n sty iss e
     | ws => map (fun w => TWord st' w (textWidth (simple (ChangeFont (SFont st')) e))) ws ++ tokens mut blank n sty iss (simple (ChangeFont (SFont st')) e) end ->
     st = st' \/ In (SFont st) (fonts_of mut sty iss)).
  { intros st' ws0 e0 H0. destruct (match ws0 with [] => if blank then [[]] else [] | _ => ws0 end) as [|w0 ws]; [right; exact (IH _ _ _ _ H0)|]. apply in_app_or in H0 as [H0|H0]; [|right; exact (IH _ _ _ _ H0)].
    apply in_map_iff in H0 as (w' & E & Hw). injection E as <- _ _. left. reflexivity. }
  cbn [tokens] in H. cbn [fonts_of map]. destruct is; cbn [reading] in H; try (right; exact (IH _ _ _ _ H)).
  - destruct (K _ _ _ H) as [->|G]; [left; reflexivity|right; exact G].
  - destruct (K _ _ _ H) as [->|G]; [left; reflexivity|right; exact G].
  - destruct H as [H|H]; [discriminate H|right; exact (IH _ _ _ _ H)].
Qed.
Lemma frags_fonts : forall hyph ts width gs fonts, broken_into hyph width ts gs -> (forall st w m, In (TWord st w m) ts -> In (SFont st) fonts) ->
  forall g f first, In g gs -> In f (g_frags g) -> In (SFont (i_sty (frag_item (F:=NumQ) first f))) fonts.
Proof.
  intros hyph ts width gs fonts [B1 B2 B3] Ht g f first Hg Hf.
  assert (HT : forall g st w m f, In g gs -> In f (g_frags g) -> In (TWord st w m) (frag_tokens f) -> In (TWord st w m) ts).
  { intros g0 st w m f0 H1 H2 H3. rewrite <- B1. apply in_flat_map. exists g0. split; [exact H1|]. unfold group_tokens. apply in_or_app. left. apply in_flat_map. exists f0. split; assumption. }
  destruct f as [st w m|st w a b m|st r m]; cbn [frag_item i_sty].
  - exact (Ht st w m (HT g st w m _ Hg Hf (or_introl eq_refl))).
  - exact (Ht st w m (HT g st w m _ Hg Hf (or_introl eq_refl))).
  - apply in_split in Hg as (x & y & Eg). apply in_split in Hf as (pre & post & Ef).
    destruct (proj1 (proj1 (groups_at _ _ _ _ B2 x g y Eg) pre _ post Ef)) as (_ & p & w & a & b & Ep & _). apply last_in in Ep.
    apply (Ht st w m). apply (HT _ st w m (Head st w a b m) ltac:(rewrite Eg; apply in_or_app; left; exact Ep)); [cbn; apply in_or_app; right; left; reflexivity|left; reflexivity].
Qed.
Hypothesis Hp : page_stable (eng:=eng).
Lemma plain_fonts : forall iss width sty (s : PS), let '(lines, _) := textLines mut iss width sty s in
  forall l it, In l lines -> In it (l_items l) -> In (SFont (i_sty it)) (fonts_of mut sty iss).
Proof.
  intros iss width sty s. destruct (textLines_rules mut Hp iss width sty s) as (lines & gs & -> & L & B). intros l it Hl Hit.
  destruct (Forall2_in_l _ _ _ _ _ L l Hl) as (g & Hg & L1 & _). rewrite L1 in Hit. apply items_of_in in Hit as (first & f & Hf & ->).
  exact (frags_fonts _ _ _ _ _ B (fun st w m Hin => tokens_fonts _ _ _ _ _ st w m Hin) g f first Hg Hf).
Qed.
Lemma block_fonts : forall hyph iss width sty (s : PS), let '(lines, _) := textLinesHyphenated mut hyph iss width sty s in
  forall l it, In l lines -> In it (l_items l) -> In (SFont (i_sty it)) (fonts_of mut sty iss).
Proof.
  intros hyph iss width sty s. destruct (textLinesHyphenated_rules mut hyph Hp iss width sty s) as (lines & gs & -> & L & _ & B). intros l it Hl Hit.
  destruct (Forall2_in_l _ _ _ _ _ L l Hl) as (g & Hg & [L1 L2] & _). rewrite L1 in Hit. apply items_of_in in Hit as (first & f & Hf & ->).
  exact (frags_fonts _ _ _ _ _ B (fun st w m Hin => tokens_fonts _ _ _ _ _ st w m Hin) g f first Hg Hf).
Qed.
End Fonts.
Lemma one_line_trim : forall t, one_line t -> one_line (trim is_sp t).
Proof.
  assert (L : forall t c, In c (trim_left is_sp t) -> In c t).
  { induction t as [|x t IH]; intros c H; cbn [trim_left] in H; [exact H|]. destruct (is_sp x); [right; exact (IH c H)|exact H]. }
  intros t H K. apply H. unfold trim, trim_right in K. apply in_rev in K. apply L in K. apply in_rev in K. exact (L _ _ K).
Qed.
