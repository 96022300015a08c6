(** Marks and heights, and concrete texts. *)
From Coq Require Import QArith Lia Lqa.
From Verif Require Import GoStr GoFmt Num Style Class Instr Engine EngineFacts Layout Lines LinesSpec LinesFacts LinesLink LinesView LinesThms WriteSpec WriteFacts WriteThms Proc RefEngine ProcView.
From Verif Require Import Hyph HyphBuiltin.
Local Open Scope nat_scope.
Local Notation Q := QArith_base.Q.

Section Marks.
Context {F : Num} {eng : Engine F}.
Variable mut : Styled F -> Styles F -> Styles F.
Variable hyph : bytes -> list bytes.
Lemma flags_last : forall gs : list (group F), (forall g, In g gs -> g_end g <> Broken) -> ends_ok gs ->
  forall a b c, block_flags gs = a ++ b :: c -> b = match c with [] => true | _ => false end.
Proof.
  induction gs as [|g gs IH]; intros Hb He a b c E; [destruct a; discriminate E|]. cbn [block_flags] in E.
  assert (He' : ends_ok gs). { intros x y z Ex. apply (He (g :: x) y z). rewrite Ex. reflexivity. }
  destruct a as [|a0 a].
  - injection E as E1 E2. subst b c. destruct gs as [|g' gs]; cbn.
    + destruct (He [] g [] eq_refl) as [_ K]. unfold is_final. specialize (K eq_refl). specialize (Hb g (or_introl eq_refl)). destruct (g_end g); congruence.
    + destruct (He [] g (g' :: gs) eq_refl) as [K _]. unfold is_broken, is_final. assert (K2 := Hb g' (or_intror (or_introl eq_refl))).
      destruct (g_end g'); [|congruence|]; cbn; destruct (g_end g); try reflexivity; destruct (K eq_refl) as [K3 _]; discriminate K3.
  - injection E as _ E. exact (IH (fun g0 Hg => Hb g0 (or_intror Hg)) He' a b c E).
Qed.
Lemma marks_without_breaks : page_stable (eng:=eng) -> forall iss width sty (s : PS F eng), ~ In ILineBreak iss ->
  let '(lines, _) := textLinesHyphenated mut hyph iss width sty s in
  forall a l b, lines = a ++ l :: b -> l_paragraph l = match b with [] => true | _ => false end.
Proof.
  intros Hpage iss width sty s Hi. destruct (textLinesHyphenated_rules mut hyph Hpage iss width sty s) as (lines & gs & -> & L & M & [B1 B2 B3]).
  intros a l b E. rewrite E, map_app in M. cbn [map] in M. symmetry in M. apply flags_last in M.
  - rewrite M. destruct b; reflexivity.
  - intros g Hg K. apply Hi. apply (tokens_break (eng:=eng) mut true (currentPage (ps_eng s)) sty iss (ps_eng s)). rewrite <- B1. exact (broken_token gs g Hg K).
  - exact B3.
Qed.
Lemma marks : page_stable (eng:=eng) -> forall iss width sty (s : PS F eng), let '(lines, _) := textLinesHyphenated mut hyph iss width sty s in
  exists gs, Forall2 is_block_line lines gs /\ broken_into hyph width (tokens (eng:=eng) mut true (currentPage (ps_eng s)) sty iss (ps_eng s)) gs /\ map l_paragraph lines = block_flags gs.
Proof.
  intros Hpage iss width sty s. destruct (textLinesHyphenated_rules mut hyph Hpage iss width sty s) as (lines & gs & -> & L & M & B). exists gs. split; [exact L|]. split; [exact B|exact M].
Qed.
Lemma lines_rules : page_stable (eng:=eng) -> forall iss width sty (s : PS F eng), let '(lines, _) := textLines mut iss width sty s in
  exists gs, Forall2 is_line lines gs /\ broken_into (fun _ => []) width (tokens (eng:=eng) mut false (currentPage (ps_eng s)) sty iss (ps_eng s)) gs.
Proof.
  intros Hpage iss width sty s. destruct (textLines_rules mut Hpage iss width sty s) as (lines & gs & -> & L & B). exists gs. split; [exact L|exact B].
Qed.
Lemma tokens_some : forall blank n sty iss (e : est eng), (exists is, In is iss /\ (is = ILineBreak \/ instr_words mut n sty is <> [])) -> tokens (eng:=eng) mut blank n sty iss e <> [].
Proof.
  intros blank n sty. induction iss as [|is iss IH]; intros e (i & Hi & K); [destruct Hi|]. destruct Hi as [->|Hi].
  - cbn [tokens]. destruct i; cbn [reading instr_words] in *; try (destruct K as [K|K]; [discriminate K|congruence]).
    + destruct K as [K|K]; [discriminate K|]. destruct (text_words n text); [exfalso; apply K; reflexivity|discriminate].
    + destruct K as [K|K]; [discriminate K|]. destruct (text_words n text); [exfalso; apply K; reflexivity|discriminate].
    + discriminate.
  - assert (I2 : forall e, tokens mut blank n sty iss e <> []) by (intros e'; apply IH; exists i; split; assumption).
    cbn [tokens]. destruct (reading mut n sty is) as [[[st ws]|]|]; [|discriminate|apply I2].
    destruct (match ws with [] => if blank then [[]] else [] | _ => ws end); [apply I2|discriminate].
Qed.
End Marks.

Section Heights.
Context {eng : Engine NumQ}.
Variable mut : Styled NumQ -> Styles NumQ -> Styles NumQ.
Variable hyph : bytes -> list bytes.
Lemma q_nonneg : forall (n : nat) (f l : Q), (0 <= f)%Q -> (0 <= l)%Q -> (0 < n)%nat \/ (l <= 1)%Q ->
  (0 <= inject_Z (Z.of_nat n) * (f * l) - f * l + f)%Q.
Proof.
  intros n f l Hf Hl H. assert (Hfl : (0 <= f * l)%Q) by (apply Qmult_le_0_compat; assumption). destruct H as [H|H].
  - destruct n as [|n]; [lia|]. rewrite Nat2Z.inj_succ, <- Z.add_1_r, inject_Z_plus.
    assert (Hn : (0 <= inject_Z (Z.of_nat n))%Q) by (unfold Qle; cbn; lia).
    assert (K := Qmult_le_0_compat _ _ Hn Hfl). change (inject_Z 1) with 1%Q. lra.
  - assert (Hn : (0 <= inject_Z (Z.of_nat n))%Q) by (unfold Qle; cbn; lia).
    assert (K := Qmult_le_0_compat _ _ Hn Hfl). assert (K2 : (0 <= f * (1 - l))%Q) by (apply Qmult_le_0_compat; lra). lra.
Qed.
Lemma height_nonneg : page_stable (eng:=eng) -> (forall e : est eng, 0 <= fontHeight e)%Q -> forall iss width (sty : Styles NumQ) (s : PS NumQ eng),
  (0 <= LineSpacing (SDim sty))%Q ->
  (LineSpacing (SDim sty) <= 1)%Q \/ (exists is, In is iss /\ (is = ILineBreak \/ instr_words mut (currentPage (ps_eng s)) sty is <> [])) ->
  (0 <= fst (textHeightFnc mut hyph sty iss width sty s))%Q.
Proof.
  intros Hpage Hfh iss width sty s Hl H.
  assert (Hv : forall n (s1 : PS NumQ eng), (0 < n)%nat \/ (LineSpacing (SDim sty) <= 1)%Q -> (0 <= fst (lines_height n sty s1))%Q).
  { intros n s1 Hn. unfold lines_height. rewrite !sbind_query. exact (q_nonneg n _ _ (Hfh _) Hl Hn). }
  assert (Pg : currentPage (ps_eng (emitted (ChangeFont (SFont sty)) s)) = currentPage (ps_eng s)) by (rewrite emitted_eng; apply Hpage).
  assert (Hne : forall lines gs h (w : NumQ) (R : textLine NumQ -> group NumQ -> Prop) blank, Forall2 R lines gs ->
    broken_into h w (tokens (eng:=eng) mut blank (currentPage (ps_eng s)) sty iss (ps_eng (emitted (ChangeFont (SFont sty)) s))) gs ->
    (0 < List.length lines)%nat \/ (LineSpacing (SDim sty) <= 1)%Q).
  { intros lines gs h w R blank L [B1 _ _]. destruct H as [H|H]; [right; exact H|left]. destruct L; [|cbn; lia]. exfalso. symmetry in B1. exact (tokens_some mut blank _ sty iss _ H B1). }
  unfold textHeightFnc. destruct (beqb _ _).
  - unfold textHeightHyphenated. rewrite sbind_emit. destruct (textLinesHyphenated_rules mut hyph Hpage iss width sty (emitted (ChangeFont (SFont sty)) s)) as (lines & gs & E & L & _ & B).
    rewrite Pg in B. unfold sbind. rewrite E. apply Hv. exact (Hne lines gs _ _ _ true L B).
  - unfold textHeight. rewrite sbind_emit. destruct (textLines_rules mut Hpage iss width sty (emitted (ChangeFont (SFont sty)) s)) as (lines & gs & E & L & B).
    rewrite Pg in B. unfold sbind. rewrite E. apply Hv. exact (Hne lines gs _ _ _ false L B).
Qed.
End Heights.

(** ** Concrete texts on the reference engine *)
Definition same_style : Styled NumQ -> Styles NumQ -> Styles NumQ := fun _ s => s.
Definition ref_lines (iss : list (instr NumQ)) (width : Q) : list (textLine NumQ) :=
  fst (textLines (eng:=RefEngine) same_style iss width DefaultStyle ref_state).
Definition ref_block (hyph : bytes -> list bytes) (iss : list (instr NumQ)) (width : Q) : list (textLine NumQ) :=
  fst (textLinesHyphenated (eng:=RefEngine) same_style hyph iss width DefaultStyle ref_state).
Definition show (l : list (textLine NumQ)) : list (list bytes) := map (fun l => map i_text (l_items l)) l.
Lemma ref_stable : page_stable (eng:=RefEngine).
Proof. intros f e. reflexivity. Qed.

(** Run block text with the built-in English patterns. *)
Definition en_us_lines (iss : list (instr NumQ)) (width : Q) (test : list (textLine NumQ) -> bool) : bool :=
  match new_en_us (fun _ => false) with
  | Some pl => test (ref_block (fun w => match hyphenate (fun r => r) pl w with Some ps => ps | None => [] end) iss width)
  | None => false
  end.
Lemma letters_lost : exists pl iss width, new_en_us (fun _ => false) = Some pl /\
  In "s"%char (text_letters same_style 1 DefaultStyle iss) /\
  forall c, In c (flat_map line_letters (ref_block (fun w => match hyphenate (fun r => r) pl w with Some ps => ps | None => [] end) iss width)) -> c <> "s"%char.
Proof.
  assert (E : en_us_lines [ITextBlock ($"aaa applications")] 12 (fun ls => forallb (fun c => negb (Ascii.eqb c "s"%char)) (flat_map line_letters ls)) = true)
    by (vm_cast_no_check (eq_refl true)).
  unfold en_us_lines in E. destruct (new_en_us (fun _ => false)) as [pl|]; [|discriminate E].
  exists pl, [ITextBlock ($"aaa applications")], 12%Q. split; [reflexivity|]. split; [vm_compute; tauto|].
  intros c Hc ->. rewrite forallb_forall in E. specialize (E _ Hc). discriminate E.
Qed.
Definition block_style : Styles NumQ :=
  let d := @DefaultStyle NumQ in
  mkStyles (SFont d) (SBox d) (SDim d) (ColumnWidth d) (mkAlign ($"block") ($"top")) (SColor d) (LineWidth d).
Lemma line_engine_writer : writer LineEngine (fun _ s => inject_Z (Z.of_nat (List.length s))) (fun f => PointSize f) r_font.
Proof.
  split; intros; try (split; reflexivity).
  - split; [reflexivity|split; reflexivity].
  - split; [reflexivity|]. intros _. exact (Qred_correct _).
  - eexists. split; [reflexivity|]. split; [reflexivity|]. split; [|reflexivity]. exact (Qred_correct _).
Qed.
