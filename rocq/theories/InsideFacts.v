(** Proofs about the heights at which words are printed (C106): lines do not depend on the state. *)
From Coq Require Import QArith Lia Lqa.
From Verif Require Import GoStr GoFmt GoStrFacts Num Style Class Text Instr Engine EngineFacts Layout Lines LinesSpec LinesFacts LinesLink LinesThms WriteSpec WriteFacts PageSpec PageFacts PlaceSpec InsideSpec.
From Verif Require TextSpec WriteThms.
Local Open Scope nat_scope.

Lemma replace_free : forall old new s, old <> [] -> ~ TextSpec.occurs old s -> replace_all s old new = s.
Proof.
  intros old new s Ho Hn. destruct (replace_all_replaced s old new Ho) as (parts & E1 & E2 & _).
  rewrite E2. destruct parts as [|p [|q parts]]; [symmetry; exact E1|symmetry; exact E1|]. exfalso. apply Hn. exists p, (joined old (q :: parts)). rewrite E1. reflexivity.
Qed.

Section Alike.
Context {eng : Engine NumQ} (mut : Styled NumQ -> Styles NumQ -> Styles NumQ) (hyph : bytes -> list bytes) (tw : Font NumQ -> bytes -> Q) (fh : Font NumQ -> Q).
Local Notation PS := (PS NumQ eng).
Hypothesis K : metrics eng tw fh.
Lemma metric_stable : page_stable (eng:=eng).
Proof. intros f e. apply (K_page _ _ _ K). Qed.
Variables (w w' : Q).
Hypothesis Hw : (w == w')%Q.
Lemma leb_alike : forall x : Q, @leb NumQ w x = @leb NumQ w' x.
Proof. intros x. apply (Qleb_comp w w' Hw x x). reflexivity. Qed.
Lemma sub_alike : forall x t : Q, @leb NumQ x (@sub NumQ w t) = @leb NumQ x (@sub NumQ w' t).
Proof. intros x t. apply (Qleb_comp x x (Qeq_refl x)). cbn. rewrite Hw. reflexivity. Qed.
Definition alike (s1 s2 : PS) : Prop := forall x, textWidth (ps_eng s1) x = textWidth (ps_eng s2) x.
Lemma font_alike : forall f s1 s2, alike (font_changed f s1) (font_changed f s2).
Proof. intros f s1 s2 x. rewrite !font_eng, !(K_width _ _ _ K). reflexivity. Qed.
Lemma place_words_alike : forall st ws lines curr (s1 s2 : PS), alike s1 s2 ->
  exists r, place_words (eng:=eng) (w : NumQ) st ws lines curr s1 = (r, s1) /\ place_words (w' : NumQ) st ws lines curr s2 = (r, s2).
Proof.
  intros st. induction ws as [|x ws IH]; intros lines curr s1 s2 S; cbn [place_words]; [eexists; split; reflexivity|].
  rewrite !sbind_query, (S (sp :: x)), leb_alike. destruct (@leb NumQ w' _); apply IH; exact S.
Qed.
Lemma cp_some : $"{cp}" <> [].
Proof. discriminate. Qed.
Lemma read_alike : forall sty is (s1 s2 : PS), cp_free is -> exists p, read_piece (eng:=eng) mut sty is s1 = (p, s1) /\ read_piece (eng:=eng) mut sty is s2 = (p, s2).
Proof.
  intros sty is s1 s2 Hf. destruct is; try (eexists; split; reflexivity); cbn [read_piece cp_free] in *; unfold sbind; rewrite !norm_eq, !(fun new => replace_free ($"{cp}") new _ cp_some Hf); eexists; split; reflexivity.
Qed.
Lemma place_pieces_alike : forall sty iss lines curr (s1 s2 : PS), (forall i, In i iss -> cp_free i) ->
  fst (place_pieces (eng:=eng) mut (w : NumQ) sty iss lines curr s1) = fst (place_pieces mut (w' : NumQ) sty iss lines curr s2).
Proof.
  intros sty. induction iss as [|is iss IH]; intros lines curr s1 s2 S; [reflexivity|]. cbn [place_pieces].
  assert (S' : forall i, In i iss -> cp_free i) by (intros i Hi; apply S; right; exact Hi). destruct (read_alike sty is s1 s2 (S is (or_introl eq_refl))) as (p & E1 & E2).
  rewrite (WriteThms.sbind_run _ _ _ _ _ _ _ E1), (WriteThms.sbind_run _ _ _ _ _ _ _ E2). destruct p as [|it|]; try (apply IH; exact S'). destruct (i_text it) as [|c t]; [apply IH; exact S'|].
  rewrite !sbind_font. destruct (place_words_alike (i_sty it) (Lines.words (c :: t)) lines curr _ _ (font_alike (SFont (i_sty it)) s1 s2)) as (r & P1 & P2).
  rewrite (WriteThms.sbind_run _ _ _ _ _ _ _ P1), (WriteThms.sbind_run _ _ _ _ _ _ _ P2). apply IH. exact S'.
Qed.
Lemma try_alike : forall parts t i (s1 s2 : PS), alike s1 s2 ->
  exists r, try_parts (eng:=eng) parts (@sub NumQ w t) i s1 = (r, s1) /\ try_parts parts (@sub NumQ w' t) i s2 = (r, s2).
Proof.
  intros parts t. induction i as [|i IH]; intros s1 s2 S; cbn [try_parts]; [eexists; split; reflexivity|]. rewrite !sbind_query, (S _), sub_alike.
  destruct (@leb NumQ _ (@sub NumQ w' t)); [eexists; split; reflexivity|apply IH; exact S].
Qed.
Lemma place_words_h_alike : forall st ws lines curr (s1 s2 : PS), alike s1 s2 ->
  exists r, place_words_h (eng:=eng) hyph (w : NumQ) st ws lines curr s1 = (r, s1) /\ place_words_h hyph (w' : NumQ) st ws lines curr s2 = (r, s2).
Proof.
  intros st. induction ws as [|x ws IH]; intros lines curr s1 s2 S; cbn [place_words_h]; [eexists; split; reflexivity|].
  rewrite !sbind_query, !(S _), leb_alike. destruct (@leb NumQ w' _); [|rewrite !sbind_ret; apply IH; exact S].
  assert (exists h, tryHyphenate hyph (w : NumQ) x (l_width curr) s1 = (h, s1) /\ tryHyphenate hyph (w' : NumQ) x (l_width curr) s2 = (h, s2)) as (h & T1 & T2).
  { unfold tryHyphenate. destruct (_ <? 2); [eexists; split; reflexivity|apply try_alike; exact S]. }
  set (k := fun (h : option (bytes * bytes)) => match h with
    | None => sret (lines ++ [curr], @empty_line NumQ, x, textWidth (ps_eng s2) (sp :: x), textWidth (ps_eng s2) x)
    | Some (x1, x2) => sbind (query (fun e => textWidth e x1)) (fun w1 => sbind (query (fun e => textWidth e (trim is_sp x1))) (fun p1 =>
        sbind (query (fun e => textWidth e x2)) (fun w2 => sbind (query (fun e => textWidth e (trim is_sp x2))) (fun p2 =>
        sret (eng:=eng) (lines ++ [mkLine (l_items curr ++ [mkItem st x1]) (add (l_width curr) w1) (add (l_pure curr) p1) (l_paragraph curr)], @empty_line NumQ, x2, w2, p2)))))
    end).
  assert (exists r, k h s1 = (r, s1) /\ k h s2 = (r, s2)) as (r & R1 & R2).
  { unfold k. destruct h as [[x1 x2]|]; eexists; split; try reflexivity; rewrite !sbind_query, ?(S _); reflexivity. }
  assert (R1' : sbind (tryHyphenate hyph (w : NumQ) x (l_width curr)) k s1 = (r, s1)) by (rewrite (WriteThms.sbind_run _ _ _ _ _ _ _ T1); exact R1).
  assert (R2' : sbind (tryHyphenate hyph (w' : NumQ) x (l_width curr)) k s2 = (r, s2)) by (rewrite (WriteThms.sbind_run _ _ _ _ _ _ _ T2); exact R2).
  rewrite (WriteThms.sbind_run _ _ _ _ _ _ _ R1'), (WriteThms.sbind_run _ _ _ _ _ _ _ R2'). destruct r as [[[[ls c] y] a] b]. apply IH. exact S.
Qed.
Lemma place_pieces_h_alike : forall sty iss lines curr (s1 s2 : PS), (forall i, In i iss -> cp_free i) ->
  fst (place_pieces_h (eng:=eng) mut hyph (w : NumQ) sty iss lines curr s1) = fst (place_pieces_h mut hyph (w' : NumQ) sty iss lines curr s2).
Proof.
  intros sty. induction iss as [|is iss IH]; intros lines curr s1 s2 S; [reflexivity|]. cbn [place_pieces_h].
  assert (S' : forall i, In i iss -> cp_free i) by (intros i Hi; apply S; right; exact Hi). destruct (read_alike sty is s1 s2 (S is (or_introl eq_refl))) as (p & E1 & E2).
  rewrite (WriteThms.sbind_run _ _ _ _ _ _ _ E1), (WriteThms.sbind_run _ _ _ _ _ _ _ E2). destruct p as [|it|]; try (apply IH; exact S').
  rewrite !sbind_font. destruct (place_words_h_alike (i_sty it) (Lines.words (i_text it)) lines curr _ _ (font_alike (SFont (i_sty it)) s1 s2)) as (r & P1 & P2).
  rewrite (WriteThms.sbind_run _ _ _ _ _ _ _ P1), (WriteThms.sbind_run _ _ _ _ _ _ _ P2). apply IH. exact S'.
Qed.
Lemma lines_alike : forall iss sty (s1 s2 : PS), (forall i, In i iss -> cp_free i) ->
  fst (textLines (eng:=eng) mut iss (w : NumQ) sty s1) = fst (textLines mut iss (w' : NumQ) sty s2) /\
  fst (textLinesHyphenated (eng:=eng) mut hyph iss (w : NumQ) sty s1) = fst (textLinesHyphenated mut hyph iss (w' : NumQ) sty s2).
Proof.
  intros iss sty s1 s2 S. unfold textLines, textLinesHyphenated, sbind.
  assert (A := place_pieces_alike sty iss [] empty_line s1 s2 S). assert (B := place_pieces_h_alike sty iss [] empty_line s1 s2 S).
  destruct (place_pieces _ _ _ _ _ _ s1) as [[l1 c1] p1], (place_pieces _ _ _ _ _ _ s2) as [[l2 c2] p2]. cbn in A. injection A as -> ->.
  destruct (place_pieces_h _ _ _ _ _ _ _ s1) as [[k1 d1] q1], (place_pieces_h _ _ _ _ _ _ _ s2) as [[k2 d2] q2]. cbn in B. injection B as -> ->. split; reflexivity.
Qed.
End Alike.
