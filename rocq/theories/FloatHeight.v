(** Heights of texts in binary64 arithmetic (C53). *)
From Coq Require Import ZArith Reals Lia Lra Psatz Floats.SpecFloat.
From Flocq Require Import Core.Core.
From Verif Require Import GoStr Num Style Class Instr Engine EngineFacts Layout Table Lines Proc TableView LinesSpec LinesView LinesFacts LinesThms LinesLink WriteSpec WriteFacts WriteThms LinesWit FloatSpec FloatBase.
From Coq Require Import Rdefinitions.
Local Open Scope R_scope.

Lemma rnd_0 : rnd 0 = 0.
Proof. apply round_0. apply valid_rnd_N. Qed.
Lemma rnd_nonneg : forall x, 0 <= x -> 0 <= rnd x.
Proof. intros x H. rewrite <- rnd_0. apply rnd_le. exact H. Qed.
Lemma pow_split : forall a b : nat, 2 ^ (a + b) = 2 ^ a * 2 ^ b.
Proof. intros. apply pow_add. Qed.
Lemma pos_pow : forall n, 0 < 2 ^ n.
Proof. intro n. apply pow_lt. lra. Qed.

Lemma height_value : forall (n : nat) (f l : NumF64), moderate f -> 0 <= fval f -> moderate l -> 0 <= fval l -> (Z.of_nat n <= 2 ^ 53)%Z ->
  (0 < n)%nat \/ fval l <= 1 -> let v : NumF64 := add (sub (mul (of_Z (Z.of_nat n)) (mul f l)) (mul f l)) f in fin v /\ 0 <= fval v.
Proof.
  intros n f l [Ff Bf] Pf [Fl Bl] Pl Hn H v. rewrite Rabs_pos_eq in Bf, Bl by assumption.
  assert (Bfl : Rabs (fval f * fval l) <= 2 ^ 400).
  { rewrite Rabs_pos_eq by (apply Rmult_le_pos; assumption). change 400%nat with (200 + 200)%nat. rewrite pow_split. apply Rmult_le_compat; assumption. }
  destruct (mul_ok f l Ff Fl) as [Fh Eh]; [apply (rnd_small _ 400); [lia|exact Bfl]|].
  set (lh := mul f l) in *. assert (Ph : 0 <= fval lh) by (rewrite Eh; apply rnd_nonneg, Rmult_le_pos; assumption).
  assert (Bh : fval lh <= 2 ^ 400) by (rewrite Eh; eapply Rle_trans; [apply Rle_abs|apply rnd_bound; [lia|exact Bfl]]).
  destruct (of_Z_ok (Z.of_nat n)) as [Fn En]; [lia|]. rewrite <- INR_IZR_INZ in En.
  assert (Pn : 0 <= INR n) by apply pos_INR.
  assert (Bn : INR n <= 2 ^ 53) by (rewrite INR_IZR_INZ; eapply Rle_trans; [apply IZR_le; exact Hn|]; rewrite <- bpow_pow; change (IZR (2 ^ 53)) with (IZR (Zpower radix2 53)); rewrite IZR_Zpower by lia; apply Rle_refl).
  assert (Bm : Rabs (fval (of_Z (Z.of_nat n) : NumF64) * fval lh) <= 2 ^ 453).
  { rewrite En, Rabs_pos_eq by (apply Rmult_le_pos; assumption). change 453%nat with (53 + 400)%nat. rewrite pow_split. apply Rmult_le_compat; assumption. }
  destruct (mul_ok (of_Z (Z.of_nat n)) lh Fn Fh) as [Fm Em]; [apply (rnd_small _ 453); [lia|exact Bm]|].
  set (m := mul (of_Z (Z.of_nat n)) lh) in *. assert (Pm : 0 <= fval m) by (rewrite Em, En; apply rnd_nonneg, Rmult_le_pos; assumption).
  assert (Bm' : fval m <= 2 ^ 453) by (rewrite Em; eapply Rle_trans; [apply Rle_abs|apply rnd_bound; [lia|exact Bm]]).
  assert (G : 2 ^ 400 <= 2 ^ 453) by (apply Rle_pow; [lra|lia]). assert (G2 : 2 ^ 200 <= 2 ^ 453) by (apply Rle_pow; [lra|lia]).
  assert (Bs : Rabs (fval m - fval lh) <= 2 ^ 454) by (change 454%nat with (1 + 453)%nat; rewrite pow_split; apply Rabs_le; lra).
  destruct (sub_ok m lh Fm Fh) as [Fs Es]; [apply (rnd_small _ 454); [lia|exact Bs]|]. set (d := sub m lh) in *.
  assert (Bd : Rabs (fval d) <= 2 ^ 454) by (rewrite Es; apply rnd_bound; [lia|exact Bs]).
  assert (Bv : Rabs (fval d + fval f) <= 2 ^ 455).
  { change 455%nat with (1 + 454)%nat. rewrite pow_split. eapply Rle_trans; [apply Rabs_triang|]. rewrite (Rabs_pos_eq (fval f)) by exact Pf. assert (2 ^ 453 <= 2 ^ 454) by (apply Rle_pow; [lra|lia]). lra. }
  destruct (add_ok d f Fs Ff) as [Fv Ev]; [apply (rnd_small _ 455); [lia|exact Bv]|]. split; [exact Fv|]. unfold v. rewrite Ev. apply rnd_nonneg.
  destruct H as [H|H].
  - assert (fval lh <= fval m).
    { rewrite Em, En. rewrite <- (rnd_id lh Fh) at 1. apply rnd_le. assert (1 <= INR n) by (change 1 with (INR 1); apply le_INR; lia). nra. }
    assert (0 <= fval d) by (rewrite Es; apply rnd_nonneg; lra). lra.
  - assert (L : fval lh <= fval f) by (rewrite Eh, <- (rnd_id f Ff); apply rnd_le; rewrite (rnd_id f Ff); nra).
    destruct (opp_fin lh Fh) as (o & Fo & Eo). assert (- fval lh <= fval d) by (rewrite Es, <- Eo, <- (rnd_id o Fo); apply rnd_le; rewrite Eo; lra). lra.
Qed.

Section Heights.
Context {eng : Engine NumF64}.
Variable mut : Styled NumF64 -> Styles NumF64 -> Styles NumF64.
Variable hyph : bytes -> list bytes.
Lemma height_float : page_stable (eng:=eng) -> (forall e : est eng, moderate (fontHeight e) /\ 0 <= fval (fontHeight e)) -> forall iss width (sty : Styles NumF64) (s : PS NumF64 eng),
  moderate (LineSpacing (SDim sty)) -> 0 <= fval (LineSpacing (SDim sty)) -> (Z.of_nat (measured_lines mut hyph iss width sty s) <= 2 ^ 53)%Z ->
  fval (LineSpacing (SDim sty)) <= 1 \/ (exists is, In is iss /\ (is = ILineBreak \/ instr_words mut (currentPage (ps_eng s)) sty is <> [])) ->
  let v := fst (textHeightFnc mut hyph sty iss width sty s) in fin v /\ 0 <= fval v.
Proof.
  intros Hpage Hfh iss width sty s Hl Pl Hc H. cbv zeta.
  assert (Hv : forall n (s1 : PS NumF64 eng), (Z.of_nat n <= 2 ^ 53)%Z -> (0 < n)%nat \/ fval (LineSpacing (SDim sty)) <= 1 -> fin (fst (lines_height n sty s1)) /\ 0 <= fval (fst (lines_height n sty s1))).
  { intros n s1 Hb Hn. unfold lines_height. rewrite !sbind_query. exact (height_value n _ _ (proj1 (Hfh _)) (proj2 (Hfh _)) Hl Pl Hb Hn). }
  assert (Pg : currentPage (ps_eng (emitted (ChangeFont (SFont sty)) s)) = currentPage (ps_eng s)) by (rewrite emitted_eng; apply Hpage).
  assert (Hne : forall lines gs h (w : NumF64) (R : textLine NumF64 -> group NumF64 -> Prop) blank, Forall2 R lines gs ->
    broken_into h w (tokens (eng:=eng) mut blank (currentPage (ps_eng s)) sty iss (ps_eng (emitted (ChangeFont (SFont sty)) s))) gs ->
    (0 < List.length lines)%nat \/ fval (LineSpacing (SDim sty)) <= 1).
  { intros lines gs h w R blank L [B1 _ _]. destruct H as [H|H]; [right; exact H|left]. destruct L; [|cbn; lia]. exfalso. symmetry in B1. exact (tokens_some mut blank _ sty iss _ H B1). }
  unfold textHeightFnc, measured_lines in *. change (snd (emit (ChangeFont (SFont sty)) s)) with (emitted (ChangeFont (SFont sty)) s) in Hc. destruct (beqb _ _).
  - unfold textHeightHyphenated. rewrite sbind_emit. destruct (textLinesHyphenated_rules mut hyph Hpage iss width sty (emitted (ChangeFont (SFont sty)) s)) as (lines & gs & E & L & _ & B).
    rewrite Pg in B. unfold sbind. rewrite E in *. apply Hv; [exact Hc|]. exact (Hne lines gs _ _ _ true L B).
  - unfold textHeight. rewrite sbind_emit. destruct (textLines_rules mut Hpage iss width sty (emitted (ChangeFont (SFont sty)) s)) as (lines & gs & E & L & B).
    rewrite Pg in B. unfold sbind. rewrite E in *. apply Hv; [exact Hc|]. exact (Hne lines gs _ _ _ false L B).
Qed.
End Heights.
