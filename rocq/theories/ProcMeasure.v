(** A relation that holds for steps leaving no marks holds for measuring texts, for laying out
    tables, and, if it holds for writing a word, for writing texts (after ProcInv.v). *)
From Coq Require Import Lia Permutation.
From Verif Require Import GoStr Num Style Class Instr Engine Layout Table Lines Proc EngineFacts ProcInv.

(** Commands that leave marks, or belong to drawing frames. *)
Definition visible {F : Num} (c : cmd F) : bool :=
  match c with
  | WriteText _ => true
  | Simple (PutImage _ _ _ _ _) | Simple (SetLineWidth _) | Simple (SetDrawColor _ _ _) | Simple (SetFillColor _ _ _) | Simple (FillRect _ _ _ _)
  | Simple (MoveTo _ _) | Simple (LineTo _ _) | Simple DrawPath => true
  | _ => false
  end.
Section Measure.
Context {F : Num} (env : Env F) {eng : Engine F} (callback : cb -> M eng unit).
Local Notation PS := (PS F eng).
Variable R : PS -> PS -> Prop.
Variable I : PS -> Prop.
Variable D : Prop.
Local Notation sok := (sok R I).
Local Notation mok := (mok R I D).
Hypothesis Hrefl : forall s, R s s.
Hypothesis Htrans : forall s1 s2 s3, R s1 s2 -> R s2 s3 -> R s1 s3.
Hypothesis Hinv : forall s s', I s -> R s s' -> I s'.
Hypothesis Hemit : forall c s, visible (Simple c) = false -> I s -> R s (emitted c s).
Hypothesis Hfont : forall f s, I s -> R s (set_sty (with_font f (ps_sty s)) s).
Hypothesis Hwrite : forall t, mok (write_text callback t).

Lemma meas_ret : forall A (a : A), sok (sret a).
Proof. intros A a s _. apply Hrefl. Qed.
Lemma meas_query : forall A (f : est eng -> A), sok (query f).
Proof. intros A f s _. apply Hrefl. Qed.
Lemma meas_get : forall A (f : PS -> A), sok (get f).
Proof. intros A f s _. apply Hrefl. Qed.
Lemma meas_emit : forall c, visible (Simple c) = false -> sok (emit c).
Proof. intros c V s Hs. rewrite emit_eq. apply Hemit; assumption. Qed.
Hint Extern 0 (visible _ = false) => reflexivity : core.
Lemma meas_bind : forall A B (m : St eng A) (k : A -> St eng B), sok m -> (forall a, sok (k a)) -> sok (sbind m k).
Proof. intros A B m k Hm Hk s Hs. rewrite sbind_pair. assert (G := Hm s Hs). eapply Htrans; [exact G|]. apply Hk. exact (Hinv _ _ Hs G). Qed.
Lemma meas_changeFont : forall f, sok (changeFont f).
Proof.
  intros f s Hs. unfold changeFont. rewrite sbind_pair. cbn [modify fst snd]. rewrite sbind_pair. cbn [get fst snd].
  rewrite emit_eq. cbn [snd]. assert (G := Hfont f s Hs). eapply Htrans; [exact G|]. apply Hemit; [reflexivity|exact (Hinv _ _ Hs G)].
Qed.
Lemma writ_ret : forall A (a : A), mok (ret a).
Proof. intros A a s _. apply Hrefl. Qed.
Lemma writ_lift : forall A (m : St eng A), sok m -> mok (lift m).
Proof. intros A m Hm s Hs. unfold lift. assert (G := Hm s Hs). destruct (m s) as [a s']. exact G. Qed.
Lemma writ_bind : forall A B (m : M eng A) (k : A -> M eng B), mok m -> (forall a, mok (k a)) -> mok (bind m k).
Proof.
  intros A B m k Hm Hk s Hs. unfold bind. assert (G := Hm s Hs). destruct (m s) as [a s1| |]; try exact G.
  assert (G2 := Hk a s1 (Hinv _ _ Hs G)). destruct (k a s1) as [b s2| |]; cbn in *; try exact G2. exact (Htrans _ _ _ G G2).
Qed.
Hint Resolve meas_ret meas_query meas_get meas_emit meas_changeFont : core.
Ltac sok := repeat first [solve [auto] | apply meas_bind; [|intro] | match goal with |- sok (match ?x with _ => _ end) => destruct x end].

Lemma meas_tr : forall t, sok (tr t). Proof. intro. unfold tr. sok. Qed.
Hint Resolve meas_tr : core.
Lemma meas_norm : forall t, sok (norm t). Proof. intro. unfold norm. sok. Qed.
Hint Resolve meas_norm : core.
Lemma meas_read : forall mut y i, sok (read_piece mut y i). Proof. intros. destruct i; unfold read_piece; sok. Qed.
Hint Resolve meas_read : core.
Lemma meas_place : forall w y ws l c, sok (place_words w y ws l c).
Proof. intros w y. induction ws as [|x ws IH]; intros l c; cbn [place_words]; [auto|]. sok. Qed.
Hint Resolve meas_place : core.
Lemma meas_pieces : forall mut w y iss l c, sok (place_pieces mut w y iss l c).
Proof. intros mut w y. induction iss as [|x iss IH]; intros l c; cbn [place_pieces]; [auto|]. sok. Qed.
Hint Resolve meas_pieces : core.
Lemma meas_lines : forall mut iss w y, sok (textLines mut iss w y). Proof. intros. unfold textLines. sok. Qed.
Hint Resolve meas_lines : core.
Lemma meas_lh : forall n y, sok (lines_height n y). Proof. intros. unfold lines_height. sok. Qed.
Hint Resolve meas_lh : core.
Lemma meas_height : forall mut iss w y, sok (textHeight mut iss w y). Proof. intros. unfold textHeight. sok. Qed.
Hint Resolve meas_height : core.
Lemma meas_try : forall parts w i, sok (try_parts parts w i).
Proof. intros parts w. induction i as [|i IH]; cbn [try_parts]; [auto|]. sok. Qed.
Hint Resolve meas_try : core.
Lemma meas_tryH : forall hy w t c, sok (tryHyphenate hy w t c). Proof. intros. unfold tryHyphenate. sok. Qed.
Hint Resolve meas_tryH : core.
Lemma meas_place_h : forall hy w y ws l c, sok (place_words_h hy w y ws l c).
Proof. intros hy w y. induction ws as [|x ws IH]; intros l c; cbn [place_words_h]; [auto|]. sok. Qed.
Hint Resolve meas_place_h : core.
Lemma meas_pieces_h : forall mut hy w y iss l c, sok (place_pieces_h mut hy w y iss l c).
Proof. intros mut hy w y. induction iss as [|x iss IH]; intros l c; cbn [place_pieces_h]; [auto|]. sok. Qed.
Hint Resolve meas_pieces_h : core.
Lemma meas_lines_h : forall mut hy iss w y, sok (textLinesHyphenated mut hy iss w y). Proof. intros. unfold textLinesHyphenated. sok. Qed.
Hint Resolve meas_lines_h : core.
Lemma meas_height_h : forall mut hy iss w y, sok (textHeightHyphenated mut hy iss w y). Proof. intros. unfold textHeightHyphenated. sok. Qed.
Hint Resolve meas_height_h : core.
Lemma meas_heightFnc : forall mut hy y iss w y', sok (textHeightFnc mut hy y iss w y'). Proof. intros. unfold textHeightFnc. destruct (beqb _ _); auto. Qed.
Hint Resolve meas_heightFnc : core.
Lemma meas_align : forall w x y l, sok (align_line w x y l). Proof. intros. unfold align_line. sok. Qed.
Hint Resolve meas_align : core.
Lemma meas_color : forall c, sok (set_text_color c). Proof. intros. unfold set_text_color. sok. Qed.
Hint Resolve meas_color : core.
Lemma meas_page : sok (page_now (eng:=eng)). Proof. unfold page_now. sok. Qed.
Hint Resolve meas_page : core.
Lemma meas_reset : sok (resetStyles (eng:=eng)). Proof. unfold resetStyles. sok. Qed.
Hint Resolve meas_reset : core.
Lemma meas_bth : forall iss w y, sok (box_text_height env iss w y). Proof. intros. unfold box_text_height, p_textHeightFnc. sok. Qed.
Hint Resolve meas_bth : core.
Lemma meas_tbh : forall st iss pa, sok (textBoxHeight env st iss pa). Proof. intros. unfold textBoxHeight. sok. Qed.
Hint Resolve meas_tbh : core.
Lemma meas_min : forall c h, sok (assignCellMinHeight env c h). Proof. intros. unfold assignCellMinHeight, p_textHeightFnc. cbv zeta. sok. Qed.
Hint Resolve meas_min : core.
Lemma meas_mins : forall cs h, sok (min_heights env cs h).
Proof. induction cs as [|c cs IH]; intros h; cbn [min_heights]; [auto|]. sok. Qed.
Hint Resolve meas_mins : core.
Lemma meas_minsr : forall rs h, sok (min_heights_rows env rs h).
Proof. induction rs as [|c cs IH]; intros h; cbn [min_heights_rows]; [auto|]. sok. Qed.
Hint Resolve meas_minsr : core.
Lemma meas_ah : forall t h, sok (assignHeights env t h). Proof. intros. unfold assignHeights. cbv zeta. sok. Qed.
Hint Resolve meas_ah : core.
Lemma meas_transform : forall st xrows, sok (transformTable env st xrows).
Proof.
  intros. unfold transformTable. apply meas_bind; [auto|intro y]. destruct (buildTable _ _ _ _) as [h t]. destruct (processSpans t h) as [h' t']. sok.
Qed.
Hint Resolve meas_transform : core.
Hint Resolve writ_ret writ_lift : core.
Ltac mok := repeat first [solve [auto] | apply writ_bind; [|intro] | apply writ_lift; solve [sok] | match goal with |- mok (match ?x with _ => _ end) => destruct x end].

Lemma writ_items : forall l, mok (write_items callback l).
Proof. induction l as [|x l IH]; cbn [write_items]; [auto|]. mok. Qed.
Hint Resolve writ_items : core.
Lemma writ_wlines : forall w x y l, mok (write_lines callback w x y l).
Proof. intros w x y. induction l as [|z l IH]; cbn [write_lines]; [auto|]. mok. Qed.
Hint Resolve writ_wlines : core.
Lemma writ_writeText : forall mut iss w y, mok (Lines.writeText callback mut iss w y).
Proof. intros. unfold Lines.writeText. mok. Qed.
Hint Resolve writ_writeText : core.
Lemma writ_spaced : forall w l, mok (write_spaced callback w l).
Proof. intros w. induction l as [|x l IH]; cbn [write_spaced]; [auto|]. mok. Qed.
Hint Resolve writ_spaced : core.
Lemma writ_wlines_h : forall w x y l, mok (write_lines_h callback w x y l).
Proof. intros w x y. induction l as [|z l IH]; cbn [write_lines_h]; [auto|]. cbv zeta. mok. Qed.
Hint Resolve writ_wlines_h : core.
Lemma writ_writeText_h : forall mut hy iss w y, mok (writeTextHyphenated callback mut hy iss w y).
Proof. intros. unfold writeTextHyphenated. mok. Qed.
Hint Resolve writ_writeText_h : core.
Lemma writ_wfnc : forall mut hy y iss w y', mok (writeTextFnc callback mut hy y iss w y').
Proof. intros. unfold writeTextFnc. destruct (beqb _ _); auto. Qed.
Hint Resolve writ_wfnc : core.
End Measure.
