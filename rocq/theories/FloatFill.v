(** Justified lines in binary64 (C50). *)
From Coq Require Import ZArith Reals Lia Lra Psatz Floats.SpecFloat.
From Flocq Require Import Core.Core.
From Verif Require Import GoStr GoStrFacts Num Style Class Instr Engine EngineFacts Layout Lines LinesSpec LinesFacts LinesLink LinesView LinesThms WriteSpec WriteFacts DrawFacts WriteThms FloatSpec FloatFillSpec FloatBase FloatRel FloatTable FloatLines.
From Coq Require Import Rdefinitions.
Local Open Scope R_scope.

Lemma tenth_float : let t : NumF64 := div (of_Z 1) (of_Z 10) in fin t /\ Rabs (fval t - / 10) <= u.
Proof.
  assert (U := u_small). destruct (of_Z_ok 1) as [A1 A2]; [cbn; lia|]. destruct (of_Z_ok 10) as [B1 B2]; [cbn; lia|].
  destruct (div_err (of_Z 1) (of_Z 10) A1 B1) as (F & e & t & He & Ht & E); rewrite ?A2, ?B2 in *; [lra| |].
  - replace (1 / 10) with (/ 10) by field. rewrite Rabs_pos_eq by lra. assert (1 <= 2 ^ 1000) by (apply pow_R1_Rle; lra). lra.
  - split; [exact F|]. rewrite E. assert (eta <= u / 2) by (rewrite eta_val, u_val; replace 1075%nat with (53 + 1022)%nat by reflexivity; rewrite pow_add, Rinv_mult; assert (/ 2 ^ 1022 <= / 2 ^ 1) by (apply Rinv_le_contravar; [lra|apply Rle_pow; [lra|lia]]); assert (0 < / 2 ^ 53) by (apply Rinv_0_lt_compat, pow2_pos); simpl (2 ^ 1) in *; nra).
    replace (1 / 10 * (1 + e) + t - / 10) with (e / 10 + t) by field. apply Rabs_le_inv in He, Ht. apply Rabs_le. lra.
Qed.
Lemma gap_float : forall (W p : NumF64) (n : nat) S, moderate W -> fin p -> (2 <= n)%nat -> (Z.of_nat n <= 2 ^ 20)%Z ->
  0 <= S <= INR n * 2 ^ 200 -> Rabs (fval p - S) <= 2 * INR n * u * S ->
  let gap := div (sub (sub W (div (of_Z 1) (of_Z 10))) p) (of_Z (Z.of_nat n - 1)) in
  fin gap /\ Rabs (S + INR (n - 1) * fval gap - (fval W - / 10)) <= fill_error n (fval W) S.
Proof.
  intros W p n S [FW BW] Fp H2 Hn [S0 S1] Ep gap. assert (U := u_small). destruct tenth_float as [Ft Et]. set (t := div (of_Z 1) (of_Z 10) : NumF64) in *.
  assert (Big := big_sum). assert (P200 := pow2_pos 200). assert (P201 : 2 ^ 201 = 2 * 2 ^ 200) by reflexivity. assert (P1 : 1 <= 2 ^ 200) by (apply pow_R1_Rle; lra).
  assert (Bn : 2 <= INR n <= 1048576). { split; [apply (le_INR 2 n H2)|rewrite INR_IZR_INZ; apply IZR_le; lia]. }
  assert (BS : S <= 1048576 * 2 ^ 200) by nra. assert (Q : 2 * INR n * u * S <= / 2 * S) by (apply Rmult_le_compat_r; [exact S0|nra]).
  set (w := fval W) in *. set (P := fval p) in *. set (T := fval t) in *.
  apply Rabs_le_inv in BW. apply Rabs_le_inv in Et.
  destruct (sub_err W t FW Ft) as (Fa & e1 & He1 & Ea). { fold w T. apply Rabs_le. lra. } set (a := sub W t) in *. fold w T in Ea.
  assert (D1 : Rabs (fval a - (w - / 10)) <= u * (Rabs w + 2)).
  { rewrite Ea. replace ((w - T) * (1 + e1) - (w - / 10)) with ((w - T) * e1 - (T - / 10)) by ring. eapply Rle_trans; [apply Rabs_triang|]. rewrite Rabs_Ropp, Rabs_mult.
    assert (Rabs (w - T) <= Rabs w + / 2). { eapply Rle_trans; [apply Rabs_triang|]. rewrite Rabs_Ropp. apply Rplus_le_compat_l. apply Rabs_le. lra. }
    assert (Rabs (T - / 10) <= u) by (apply Rabs_le; lra). assert (Rabs (w - T) * Rabs e1 <= (Rabs w + / 2) * u) by (apply Rmult_le_compat; try apply Rabs_pos; assumption). nra. }
  assert (Aw := Rabs_pos w). assert (BW' : Rabs w <= 2 ^ 200) by (apply Rabs_le; lra).
  assert (D2 : Rabs (fval a - P - (w - / 10 - S)) <= u * (Rabs w + 2) + 2 * INR n * u * S).
  { replace (fval a - P - (w - / 10 - S)) with ((fval a - (w - / 10)) - (P - S)) by ring. eapply Rle_trans; [apply Rabs_triang|]. rewrite Rabs_Ropp. lra. }
  assert (Bx : Rabs (w - / 10 - S) <= Rabs w + / 10 + S). { eapply Rle_trans; [apply Rabs_triang|]. rewrite Rabs_Ropp, (Rabs_pos_eq S) by exact S0. apply Rplus_le_compat_r. eapply Rle_trans; [apply Rabs_triang|]. rewrite Rabs_Ropp, (Rabs_pos_eq (/ 10)); lra. }
  assert (U1 : u * (Rabs w + 2) <= / 2 * Rabs w + / 2) by nra.
  assert (B2 : Rabs (fval a - P) <= 2 * Rabs w + 1 + 2 * S).
  { replace (fval a - P) with ((fval a - P - (w - / 10 - S)) + (w - / 10 - S)) by ring. eapply Rle_trans; [apply Rabs_triang|]. lra. }
  destruct (sub_err a p Fa Fp) as (Fb & e2 & He2 & Eb). { fold P. lra. } set (b := sub a p) in *. fold P in Eb.
  assert (D3 : Rabs (fval b - (w - / 10 - S)) <= u * (3 * Rabs w + 3 + 2 * S) + 2 * INR n * u * S).
  { rewrite Eb. replace ((fval a - P) * (1 + e2) - (w - / 10 - S)) with ((fval a - P) * e2 + (fval a - P - (w - / 10 - S))) by ring. eapply Rle_trans; [apply Rabs_triang|]. rewrite Rabs_mult.
    assert (Rabs (fval a - P) * Rabs e2 <= (2 * Rabs w + 1 + 2 * S) * u) by (apply Rmult_le_compat; try apply Rabs_pos; assumption). nra. }
  assert (U2 : u * (3 * Rabs w + 3 + 2 * S) <= / 2 * (Rabs w + 1 + S)) by nra.
  assert (B3 : Rabs (fval b) <= 2 * Rabs w + 1 + 2 * S).
  { replace (fval b) with ((fval b - (w - / 10 - S)) + (w - / 10 - S)) by ring. eapply Rle_trans; [apply Rabs_triang|]. lra. }
  destruct (of_Z_ok (Z.of_nat n - 1)) as [Fn En]; [lia|].
  assert (En' : fval (of_Z (Z.of_nat n - 1) : NumF64) = INR (n - 1)). { rewrite En, INR_IZR_INZ. f_equal. lia. }
  assert (N1 : 1 <= INR (n - 1) <= INR n) by (split; [apply (le_INR 1); lia|apply le_INR; lia]).
  destruct (div_err b (of_Z (Z.of_nat n - 1)) Fb Fn) as (Fg & e3 & t3 & He3 & Ht3 & Eg); rewrite ?En'.
  - lra.
  - unfold Rdiv. rewrite Rabs_mult, (Rabs_pos_eq (/ INR (n - 1))) by (apply Rlt_le, Rinv_0_lt_compat; lra). assert (/ INR (n - 1) <= 1) by (rewrite <- Rinv_1; apply Rinv_le_contravar; lra).
    assert (0 < / INR (n - 1)) by (apply Rinv_0_lt_compat; lra). assert (Pb := Rabs_pos (fval b)). nra.
  - rewrite En' in Eg. subst gap. split; [exact Fg|]. rewrite Eg.
    replace (S + INR (n - 1) * (fval b / INR (n - 1) * (1 + e3) + t3) - (w - / 10)) with ((fval b - (w - / 10 - S)) + fval b * e3 + INR (n - 1) * t3) by (field; lra).
    eapply Rle_trans; [apply Rabs_triang|]. eapply Rle_trans; [apply Rplus_le_compat_r, Rabs_triang|]. rewrite !Rabs_mult, (Rabs_pos_eq (INR (n - 1))) by lra.
    assert (M1 : Rabs (fval b) * Rabs e3 <= (2 * Rabs w + 1 + 2 * S) * u) by (apply Rmult_le_compat; try apply Rabs_pos; assumption).
    assert (Eu : eta <= u / 1048576). { rewrite eta_val, u_val. replace 1075%nat with (53 + 1022)%nat by reflexivity. rewrite pow_add, Rinv_mult. assert (/ 2 ^ 1022 <= / 2 ^ 20) by (apply Rinv_le_contravar; [apply pow2_pos|apply Rle_pow; [lra|lia]]). assert (0 < / 2 ^ 53) by (apply Rinv_0_lt_compat, pow2_pos). replace (/ 2 ^ 53 / 1048576) with (/ 2 ^ 53 * / 2 ^ 20) by (replace (2 ^ 20) with 1048576 by (simpl; ring); reflexivity). apply Rmult_le_compat_l; lra. }
    assert (M2 : INR (n - 1) * Rabs t3 <= u). { eapply Rle_trans; [apply Rmult_le_compat; [lra|apply Rabs_pos| |eapply Rle_trans; [exact Ht3|exact Eu]]|]; [eapply Rle_trans; [apply (proj2 N1)|apply (proj2 Bn)]|]. lra. }
    unfold fill_error. assert (E50 : / 2 ^ 50 = 8 * u) by (rewrite u_val; simpl; lra). rewrite E50, plus_INR. replace (INR 4) with 4 by (simpl; ring).
    assert (0 <= u * Rabs w) by (apply Rmult_le_pos; lra). assert (0 <= u * S) by (apply Rmult_le_pos; lra). assert (0 <= INR n * (u * S)) by (apply Rmult_le_pos; lra). assert (0 <= INR n * (u * Rabs w)) by (apply Rmult_le_pos; lra). assert (0 <= INR n * u) by (apply Rmult_le_pos; lra). nra.
Qed.

Section Writer.
Context {eng : Engine NumF64}.
Variable mut : Styled NumF64 -> Styles NumF64 -> Styles NumF64.
Variable hyph : bytes -> list bytes.
Local Notation PS := (PS NumF64 eng).
Variables (tw : Font NumF64 -> bytes -> NumF64) (font : est eng -> Font NumF64).
Hypothesis W : float_writer eng tw font.
Lemma writer_measures_f : forall f (e : est eng) s, textWidth (simple (ChangeFont f) e) s = tw f s.
Proof. intros f e s. rewrite (FW_width _ _ _ W), (proj1 (FW_set _ _ _ W f e)). reflexivity. Qed.
Lemma tokens_measure_f : forall blank n sty iss (e : est eng) st w m, In (TWord st w m) (tokens mut blank n sty iss e) -> forall x, m x = tw (SFont st) x.
Proof.
  intros blank n sty. induction iss as [|is iss IH]; intros e st w m H; [destruct H|].
  assert (K : forall st' ws (e : est eng), In (TWord st w m) match match ws with [] => if blank then [[]] else [] | _ => ws end with [] => tokens mut blank n sty iss e
     | ws => map (fun w => TWord st' w (textWidth (simple (ChangeFont (SFont st')) e))) ws ++ tokens mut blank n sty iss (simple (ChangeFont (SFont st')) e) end ->
     forall x, m x = tw (SFont st) x).
  { intros st' ws0 e0 H0. destruct (match ws0 with [] => if blank then [[]] else [] | _ => ws0 end) as [|w0 ws]; [exact (IH _ _ _ _ H0)|]. apply in_app_or in H0 as [H0|H0]; [|exact (IH _ _ _ _ H0)].
    apply in_map_iff in H0 as (w' & E & Hw). injection E as <- _ <-. intros x. apply writer_measures_f. }
  cbn [tokens] in H. destruct is; cbn [reading] in H; try exact (IH _ _ _ _ H).
  - exact (K _ _ _ H).
  - exact (K _ _ _ H).
  - destruct H as [H|H]; [discriminate H|exact (IH _ _ _ _ H)].
Qed.
Lemma frag_word_width_f : forall ts width gs, broken_into hyph width ts gs ->
  (forall st w m, In (TWord st w m) ts -> (forall x, m x = tw (SFont st) x) /\ forall c, In c w -> c <> sp) ->
  forall g f b, In g gs -> In f (g_frags g) -> frag_pure f = word_width_f tw (frag_item b f).
Proof.
  intros ts width gs [B1 B2 B3] Ht g f b Hg Hf.
  assert (HT : forall g st w m f, In g gs -> In f (g_frags g) -> In (TWord st w m) (frag_tokens f) -> In (TWord st w m) ts).
  { intros g0 st w m f0 H1 H2 H3. rewrite <- B1. apply in_flat_map. exists g0. split; [exact H1|]. unfold group_tokens. apply in_or_app. left. apply in_flat_map. exists f0. split; assumption. }
  destruct f as [st w m|st w a b' m|st r m]; cbn [frag_pure frag_item]; unfold word_width_f; cbn [i_sty i_text].
  - destruct (Ht st w m (HT g st w m _ Hg Hf (or_introl eq_refl))) as [M Fr]. rewrite M. destruct (trim_free w Fr) as [T1 T2]. destruct b; [rewrite T1|rewrite T2]; reflexivity.
  - destruct (Ht st w m (HT g st w m _ Hg Hf (or_introl eq_refl))) as [M Fr]. apply M.
  - apply in_split in Hg as (x & y & Eg). apply in_split in Hf as (pre & post & Ef).
    destruct (proj1 (proj1 (groups_at _ _ _ _ B2 x g y Eg) pre _ post Ef)) as (_ & p & w & a & b' & Ep & _). apply last_in in Ep.
    assert (Hm : forall x, m x = tw (SFont st) x).
    { apply (Ht st w m). apply (HT _ st w m (Head st w a b' m) ltac:(rewrite Eg; apply in_or_app; left; exact Ep)); [cbn; apply in_or_app; right; left; reflexivity|left; reflexivity]. }
    rewrite Hm. f_equal. destruct b; [reflexivity|]. unfold trim. cbn [trim_left]. reflexivity.
Qed.
(** The words of a line are measured in order. *)
Definition pure_line (l : textLine NumF64) : Prop := exists fs : list (frag NumF64),
  l_pure l = sum_of frag_pure fs /\ map frag_pure fs = map (word_width_f tw) (l_items l).
Lemma block_pure_f : forall iss width sty (s : PS), let '(lines, _) := textLinesHyphenated mut hyph iss width sty s in Forall pure_line lines.
Proof.
  intros iss width sty s. destruct (textLinesHyphenated_rules mut hyph (FW_page _ _ _ W) iss width sty s) as (lines & gs & -> & L & _ & B). apply Forall_forall. intros l Hl.
  destruct (Forall2_in_l _ _ _ _ _ L l Hl) as (g & Hg & [L1 L2] & L3). exists (g_frags g). split; [exact L3|]. rewrite L1.
  assert (K : forall f b, In f (g_frags g) -> frag_pure f = word_width_f tw (frag_item b f)).
  { intros f b Hf. apply (frag_word_width_f _ _ _ B) with (g := g); [|exact Hg|exact Hf]. intros st w m Hin. split; [exact (tokens_measure_f _ _ _ _ _ _ _ _ Hin)|exact (tokens_free mut _ _ _ _ _ _ _ _ Hin)]. }
  destruct (g_frags g) as [|f fs]; [reflexivity|]. cbn [items_of map]. f_equal; [apply K; left; reflexivity|]. rewrite map_map. apply map_ext_in. intros x Hx. apply K. right. exact Hx.
Qed.
Lemma pure_float : forall l, pure_line l -> (Z.of_nat (List.length (l_items l)) <= 2 ^ 20)%Z ->
  (forall it, In it (l_items l) -> moderate (word_width_f tw it) /\ 0 <= fval (word_width_f tw it)) ->
  let S := sumR (map (fun it => fval (word_width_f tw it)) (l_items l)) in
  fin (l_pure l) /\ 0 <= S <= INR (List.length (l_items l)) * 2 ^ 200 /\ Rabs (fval (l_pure l) - S) <= 2 * INR (List.length (l_items l)) * u * S.
Proof.
  intros l (fs & E1 & E2) Hn Hw S. assert (En : List.length fs = List.length (l_items l)). { apply (f_equal (@List.length NumF64)) in E2. rewrite !map_length in E2. exact E2. }
  assert (ES : S = sumR (map (fun x => fval (frag_pure x)) fs)). { unfold S. rewrite <- (map_map (word_width_f tw) fval), <- (map_map frag_pure fval), E2. reflexivity. }
  destruct (total_float frag_pure fs) as (A & B & C & _).
  - intros x Hx. assert (I : In (frag_pure x) (map (word_width_f tw) (l_items l))) by (rewrite <- E2; apply in_map; exact Hx). apply in_map_iff in I as (it & <- & Hit). exact (Hw it Hit).
  - rewrite En. exact Hn.
  - rewrite En, <- ES in *. rewrite E1. split; [exact A|]. split; [exact C|exact B].
Qed.
Variable callback : cb -> M eng unit.
Lemma write_runs_f : forall t (s s' : PS), write_text callback t s = Ok tt s' -> fst (getXY (ps_eng s')) = add (fst (getXY (ps_eng s))) (tw (font (ps_eng s)) t).
Proof.
  intros t s s' H. unfold write_text, command in H. destruct (FW_write _ _ _ W t (ps_eng s)) as (e' & E & E2). rewrite E in H. cbn in H. injection H as <-. exact E2.
Qed.
Lemma write_spaced_f : forall gap items (s s' : PS), write_spaced callback gap items s = Ok tt s' ->
  exists xs, wrote s s' (moved_items (F:=NumF64) items xs) /\ forall x, x = fst (getXY (ps_eng s)) -> Forall (fun x' => 0 <= fval x') xs -> evenly_f tw gap x items xs.
Proof.
  intros gap. induction items as [|it items IH]; intros s s' H; cbn [write_spaced] in H.
  - injection H as <-. exists []. split; [apply wrote_nil|]. intros x _ _. exact I.
  - apply bind_ok in H as ([] & s1 & H1 & H). apply lift_ok in H1. rewrite changeFont_eq in H1. injection H1 as <-.
    apply bind_ok in H as ([] & s2 & H2 & H). apply bind_ok in H as (xy & s3 & H3 & H). apply lift_ok in H3. injection H3 as <- <-.
    apply bind_ok in H as ([] & s4 & H4 & H). apply lift_ok in H4. rewrite emit_eq in H4. injection H4 as <-.
    destruct (IH _ _ H) as (xs & Wr & Ev). destruct (FW_set _ _ _ W (SFont (i_sty it)) (ps_eng s)) as [F1 F2].
    assert (X : fst (getXY (ps_eng s2)) = add (fst (getXY (ps_eng s))) (word_width_f tw it)).
    { rewrite (write_runs_f _ _ _ H2). unfold word_width_f. exact (f_equal2 add (f_equal fst F2) (f_equal (fun f => tw f _) F1)). }
    exists (add (fst (getXY (ps_eng s2))) gap :: xs). split.
    + unfold moved_items. cbn [combine flat_map app fst snd].
      apply (wrote_cons _ (font_changed (SFont (i_sty it)) s)); [apply wrote_font|].
      apply (wrote_cons _ s2); [exact (wrote_command _ _ _ _ _ H2)|]. apply (wrote_cons _ (emitted (SetX (add (fst (getXY (ps_eng s2))) gap)) s2)); [apply wrote_emit|exact Wr].
    + intros x Hx Hp. inversion Hp as [|? ? Hp1 Hp2]; subst. cbn [evenly_f]. split; [rewrite X; reflexivity|]. apply Ev; [|exact Hp2]. rewrite emitted_eng, (FW_x _ _ _ W _ _ Hp1). reflexivity.
Qed.
Lemma lines_filled_f : forall width x sty lines (s s' : PS), moderate width -> Forall pure_line lines ->
  write_lines_h callback width x sty lines s = Ok tt s' ->
  exists css, Forall2 (filled_float tw width sty x) lines css /\ wrote s s' (List.concat css).
Proof.
  intros width x sty. induction lines as [|l lines IH]; intros s s' Hw P H; cbn [write_lines_h] in H.
  - injection H as <-. exists []. split; [constructor|apply wrote_nil].
  - inversion P as [|? ? P1 P2]; subst. apply bind_ok in H as ([] & s1 & H1 & H). apply lift_ok in H1. rewrite emit_eq in H1. injection H1 as <-.
    apply bind_ok in H as ([] & s2 & H2 & H). apply bind_ok in H as ([] & s3 & H3 & H). apply lift_ok in H3. rewrite emit_eq in H3. injection H3 as <-.
    destruct (IH _ _ Hw P2 H) as (css & C & Wr).
    assert (exists cs, filled_float tw width sty x l cs /\ wrote s (emitted (LineFeed (LineSpacing (SDim sty))) s2) cs) as (cs & C1 & W1).
    { assert (Es : ((Z.of_nat (List.length (l_items l)) - 1 <? 1)%Z || l_paragraph l) = negb (stretched l)).
      { unfold stretched. rewrite negb_andb, negb_involutive. f_equal. destruct (Nat.leb_spec 2 (List.length (l_items l))), (Z.ltb_spec (Z.of_nat (List.length (l_items l)) - 1) 1); try reflexivity; lia. }
      rewrite Es in H2. unfold filled_float. destruct (stretched l) eqn:St; cbn [negb] in H2.
      - apply write_spaced_f in H2 as (xs & Wx & Ev). eexists. split; [intros _ Hn Hi; eexists _, xs; split; [reflexivity|split]|].
        + intros Hx Hp. apply Ev; [|exact Hp]. rewrite emitted_eng, (FW_x _ _ _ W _ _ Hx). reflexivity.
        + unfold stretched in St. apply andb_prop in St as [St _]. apply Nat.leb_le in St. destruct (pure_float l P1 Hn Hi) as (A & B & D).
          exact (gap_float width (l_pure l) _ _ Hw A St Hn B D).
        + apply (wrote_cons _ (emitted (SetX x) s)); [apply wrote_emit|]. apply (wrote_app _ s2); [exact Wx|apply wrote_emit].
      - apply (write_items_wrote callback) in H2. eexists. split; [intros K; discriminate K|].
        apply (wrote_cons _ (emitted (SetX x) s)); [apply wrote_emit|]. apply (wrote_app _ s2); [exact H2|apply wrote_emit]. }
    exists (cs :: css). split; [constructor; assumption|]. cbn [List.concat]. exact (wrote_app _ _ _ _ _ W1 Wr).
Qed.
Lemma text_filled_f : forall iss width sty (s s' : PS), moderate width -> writeTextHyphenated callback mut hyph iss width sty s = Ok tt s' ->
  exists lines s1 css, textLinesHyphenated mut hyph iss width sty (text_state sty s) = (lines, s1) /\
    fst (getXY (ps_eng s1)) = fst (getXY (ps_eng s)) /\
    Forall2 (filled_float tw width sty (fst (getXY (ps_eng s)))) lines css /\
    wrote s s' (start_cmds (F:=NumF64) sty (text_fonts mut true (currentPage (ps_eng s)) sty iss) ++ List.concat css).
Proof.
  intros iss width sty s s' Hw H. unfold writeTextHyphenated in H. apply bind_ok in H as ([] & s1 & H1 & H). apply lift_ok in H1. rewrite emit_eq in H1. injection H1 as <-.
  apply bind_ok in H as ([] & s1 & H1 & H). apply lift_ok in H1. unfold set_text_color in H1. rewrite emit_eq in H1. injection H1 as <-.
  rewrite <- text_state_eq in H.
  apply bind_ok in H as (lines & s2 & H2 & H). apply lift_ok in H2. apply bind_ok in H as (xy & s3 & H3 & H). apply lift_ok in H3. injection H3 as <- <-.
  assert (P := block_pure_f iss width sty (text_state sty s)). rewrite H2 in P.
  assert (E2 : s2 = fonts_changed (text_fonts mut true (currentPage (ps_eng (text_state sty s))) sty iss) (text_state sty s)).
  { destruct (textLinesHyphenated_rules mut hyph (FW_page _ _ _ W) iss width sty (text_state sty s)) as (ls & gs & E & _). rewrite H2 in E. injection E as _ ->. reflexivity. }
  assert (Pg : currentPage (ps_eng (text_state sty s)) = currentPage (ps_eng s)).
  { rewrite text_state_eq. rewrite !emitted_eng. rewrite (proj2 (FW_color _ _ _ W _ _ _ _)), (FW_page _ _ _ W). reflexivity. }
  assert (X : fst (getXY (ps_eng s2)) = fst (getXY (ps_eng s))).
  { assert (Fs : forall fs (p : PS), getXY (ps_eng (fonts_changed fs p)) = getXY (ps_eng p)).
    { induction fs as [|f fs IH]; intros p; [reflexivity|]. cbn [fonts_changed fold_left]. unfold fonts_changed in IH. rewrite IH, font_eng. exact (proj2 (FW_set _ _ _ W _ _)). }
    rewrite E2, Fs. rewrite text_state_eq. rewrite !emitted_eng. rewrite (proj1 (FW_color _ _ _ W _ _ _ _)), (proj2 (FW_set _ _ _ W _ _)). reflexivity. }
  rewrite X in H. destruct (lines_filled_f _ _ _ _ _ _ Hw P H) as (css & C & Wr).
  exists lines, s2, css. split; [exact H2|]. split; [exact X|]. split; [exact C|]. unfold start_cmds. cbn [app].
  apply (wrote_cons _ (emitted (ChangeFont (SFont sty)) s)); [apply wrote_emit|]. apply (wrote_cons _ (text_state sty s)); [rewrite text_state_eq; apply wrote_emit|].
  apply (wrote_app _ s2); [|exact Wr]. rewrite E2, Pg. apply wrote_fonts.
Qed.
End Writer.
