(** Proofs about headers and footers (C109). *)
From Coq Require Import Permutation.
From Verif Require Import GoStr GoStrFacts Num Style Class Instr Engine Lines LinesSpec LinesView Proc ProcSpec OutputSpec StyledSpec StyledThms InsideSpec InsideFacts HeaderSpec.

Section Header.
Context {F : Num} (env : Env F).
Lemma words_unnumbered : forall i sty p1 p2, cp_free i -> element_words env p1 sty i = element_words env p2 sty i.
Proof.
  intros i sty p1 p2 H. destruct i; try reflexivity; cbn [cp_free] in H; unfold element_words; cbn [instr_words]; unfold text_words; rewrite !(fun new => replace_free ($"{cp}") new _ ltac:(discriminate) H); reflexivity.
Qed.
Lemma words_all : forall iss sty p1 p2, (forall j, In j iss -> cp_free j) -> flat_map (element_words env p1 sty) iss = flat_map (element_words env p2 sty) iss.
Proof.
  induction iss as [|i iss IH]; intros sty p1 p2 H; [reflexivity|]. cbn [flat_map]. rewrite (words_unnumbered i sty p1 p2 (H i (or_introl eq_refl))), (IH sty p1 p2); [reflexivity|]. intros j Hj. apply H. right. exact Hj.
Qed.
Definition shown (q : pen F * bytes) : pen F * bytes := (fst q, unspaced (snd q)).
Lemma word_shown : forall c st w o, word_printed env false c st w o -> map shown o = [(mkPen (Some (SFont st)) (Some c), w)].
Proof.
  intros c st w o [Hp [Hw|[N _]]]; [|discriminate N]. destruct o as [|q [|q2 o]]; try discriminate Hw. injection Hw as Hw. inversion Hp as [|? ? H1 _]; subst. unfold shown. cbn [map]. rewrite H1. reflexivity.
Qed.
Lemma text_same : forall colour sty iss o1 o2, HAlign (SAlign sty) <> $"block" -> (forall j, In j iss -> cp_free j) ->
  text_printed env colour sty iss o1 -> text_printed env colour sty iss o2 -> map shown o1 = map shown o2.
Proof.
  intros colour sty iss o1 o2 Hb Hc (p1 & outs1 & -> & W1) (p2 & outs2 & -> & W2). assert (B : beqb (HAlign (SAlign sty)) ($"block") = false) by (destruct (beqb _ _) eqn:E; [apply beqb_eq in E; contradiction|reflexivity]). rewrite B in W1, W2.
  rewrite (words_all iss sty p2 p1 Hc) in W2. revert outs2 W2. induction W1 as [|[st w] o ws outs1 Hw W1 IH]; intros outs2 W2; inversion W2 as [|? o' ? outs2' Hw' W2']; subst; [reflexivity|].
  cbn [List.concat]. rewrite !map_app, (word_shown _ _ _ _ Hw), (word_shown _ _ _ _ Hw'). f_equal. apply IH. exact W2'.
Qed.
Lemma texts_same : forall colour iss ls1 ls2 outs1 outs2, (forall i, In i iss -> unnumbered i) -> (forall i, In i iss -> settled env i) ->
  Forall2 (shows env) iss ls1 -> Forall2 (shows env) iss ls2 ->
  Forall2 (fun p o => text_printed env colour (fst p) (snd p) o) (List.concat ls1) outs1 -> Forall2 (fun p o => text_printed env colour (fst p) (snd p) o) (List.concat ls2) outs2 ->
  map shown (List.concat outs1) = map shown (List.concat outs2).
Proof.
  intros colour. induction iss as [|i iss IH]; intros ls1 ls2 outs1 outs2 Hu Hs S1 S2 T1 T2; inversion S1 as [|? l1 ? ls1' Sh1 S1']; subst; inversion S2 as [|? l2 ? ls2' Sh2 S2']; subst; [inversion T1; inversion T2; reflexivity|].
  assert (Hu' : forall j, In j iss -> unnumbered j) by (intros j Hj; apply Hu; right; exact Hj). assert (Hs' : forall j, In j iss -> settled env j) by (intros j Hj; apply Hs; right; exact Hj).
  assert (Hui := Hu i (or_introl eq_refl)). assert (Hsi := Hs i (or_introl eq_refl)). specialize (fun o1 o2 => IH ls1' ls2' o1 o2 Hu' Hs' S1' S2').
  assert (Two : forall st tis, (i = IText st tis \/ i = IBox st tis) -> map shown (List.concat outs1) = map shown (List.concat outs2)).
  { intros st tis Hi. assert (K1 : exists sty, ambient_style sty /\ l1 = [(e_mut env st sty, tis)]) by (destruct Hi; subst i; exact Sh1). assert (K2 : exists sty, ambient_style sty /\ l2 = [(e_mut env st sty, tis)]) by (destruct Hi; subst i; exact Sh2).
    assert (Hset : settled env (IText st tis)) by (destruct Hi; subst i; exact Hsi). assert (Hun : forall j, In j tis -> cp_free j) by (destruct Hi; subst i; exact Hui). clear Hi Sh1 Sh2 Hsi Hui.
    destruct K1 as (a & Ha & ->). destruct K2 as (b & Hb & ->). destruct Hset as [E N]. rewrite <- (E a b Ha Hb) in T2. cbn [List.concat app] in T1, T2.
    inversion T1 as [|? o1 ? outs1' P1 T1']; subst. inversion T2 as [|? o2 ? outs2' P2 T2']; subst. cbn [fst snd List.concat] in *. rewrite !map_app. f_equal; [exact (text_same colour _ _ _ _ (N a Ha) Hun P1 P2)|exact (IH _ _ T1' T2')]. }
  destruct i; try (cbn [shows] in Sh1, Sh2; subst l1 l2; exact (IH _ _ T1 T2)); try (eapply Two; [left; reflexivity]); try (eapply Two; right; reflexivity); try destruct Hui.
Qed.
Context {eng : Engine F}.
Lemma headers_same : places eng -> page_stable (eng:=eng) -> (forall l, Permutation (e_shuffle env l) l) ->
  forall depth e r (s' : PS F eng), process env depth e = Ok r s' -> forall c, let section := match c with Header => e_header env | Footer => e_footer env end in
  (forall i, In i section -> unnumbered i) -> (forall i, In i section -> settled env i) ->
  forall sub1 sub2, call_in (ps_trace s') c sub1 -> call_in (ps_trace s') c sub2 -> same_print sub1 sub2.
Proof.
  intros Hp Hs Hsh depth e r s' H c section Hu Hset sub1 sub2 C1 C2 p1 p2. assert (K := proj2 (process_prints env Hs Hp Hsh depth e r s' H)).
  destruct (K c sub1 C1 p1) as (ls1 & outs1 & S1 & T1 & E1). destruct (K c sub2 C2 p2) as (ls2 & outs2 & S2 & T2 & E2).
  unfold printed_words. rewrite E1, E2. exact (texts_same _ _ _ _ _ _ Hu Hset S1 S2 T1 T2).
Qed.
End Header.
