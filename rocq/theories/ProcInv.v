(** A principle for invariants of the Processor: a relation that holds for every primitive
    step holds for processing instructions as a whole. *)
From Coq Require Import Lia Permutation.
From Verif Require Import GoStr Num Style Class Instr Engine Layout Grid Table Lines Proc EngineFacts LayoutFacts GridFacts TableMain TableThms DrawSpec DrawFacts.

Section Inv.
Context {F : Num} (env : Env F) {eng : Engine F} (callback : cb -> M eng unit).
Local Notation PS := (PS F eng).
Variable R : PS -> PS -> Prop.
Variable I : PS -> Prop.
Variable D : Prop.     (* may a step diverge? *)
Definition okres (s : PS) {A} (r : res eng A) : Prop :=
  match r with Ok _ s' => R s s' | Panic => False | Diverge => D end.
Definition mok {A} (m : M eng A) : Prop := forall s, I s -> okres s (m s).
Definition sok {A} (m : St eng A) : Prop := forall s, I s -> R s (snd (m s)).

Hypothesis Hrefl : forall s, R s s.
Hypothesis Htrans : forall s1 s2 s3, R s1 s2 -> R s2 s3 -> R s1 s3.
Hypothesis Hinv : forall s s', I s -> R s s' -> I s'.
Hypothesis Hemit : forall c s, I s -> R s (emitted c s).
Hypothesis Hfont : forall f s, I s -> R s (set_sty (with_font f (ps_sty s)) s).
Hypothesis Hwrite : forall t, mok (write_text callback t).
Hypothesis Hauto : forall s, I s -> ps_prevent s = false -> okres s (add_page callback s).
Hypothesis Hshuffle : forall l, Permutation (e_shuffle env l) l.

Lemma sok_ret : forall A (a : A), sok (sret a).
Proof. intros A a s _. apply Hrefl. Qed.
Lemma sok_query : forall A (f : est eng -> A), sok (query f).
Proof. intros A f s _. apply Hrefl. Qed.
Lemma sok_get : forall A (f : PS -> A), sok (get f).
Proof. intros A f s _. apply Hrefl. Qed.
Lemma sok_emit : forall c, sok (emit c).
Proof. intros c s Hs. rewrite emit_eq. apply Hemit. exact Hs. Qed.
Lemma sok_bind : forall A B (m : St eng A) (k : A -> St eng B), sok m -> (forall a, sok (k a)) -> sok (sbind m k).
Proof. intros A B m k Hm Hk s Hs. rewrite sbind_pair. assert (G := Hm s Hs). eapply Htrans; [exact G|]. apply Hk. exact (Hinv _ _ Hs G). Qed.
Lemma sok_changeFont : forall f, sok (changeFont f).
Proof.
  intros f s Hs. unfold changeFont. rewrite sbind_pair. cbn [modify fst snd]. rewrite sbind_pair. cbn [get fst snd].
  rewrite emit_eq. cbn [snd]. assert (G := Hfont f s Hs). eapply Htrans; [exact G|]. apply Hemit. exact (Hinv _ _ Hs G).
Qed.
Lemma mok_ret : forall A (a : A), mok (ret a).
Proof. intros A a s _. apply Hrefl. Qed.
Lemma mok_lift : forall A (m : St eng A), sok m -> mok (lift m).
Proof. intros A m Hm s Hs. unfold lift. assert (G := Hm s Hs). destruct (m s) as [a s']. exact G. Qed.
Lemma mok_bind : forall A B (m : M eng A) (k : A -> M eng B), mok m -> (forall a, mok (k a)) -> mok (bind m k).
Proof.
  intros A B m k Hm Hk s Hs. unfold bind. assert (G := Hm s Hs). destruct (m s) as [a s1| |]; try exact G.
  assert (G2 := Hk a s1 (Hinv _ _ Hs G)). destruct (k a s1) as [b s2| |]; cbn in *; try exact G2. exact (Htrans _ _ _ G G2).
Qed.
Hint Resolve sok_ret sok_query sok_get sok_emit sok_changeFont : core.
Ltac sok := repeat first [solve [auto] | apply sok_bind; [|intro] | match goal with |- sok (match ?x with _ => _ end) => destruct x end].

Lemma sok_tr : forall t, sok (tr t). Proof. intro. unfold tr. sok. Qed.
Hint Resolve sok_tr : core.
Lemma sok_norm : forall t, sok (norm t). Proof. intro. unfold norm. sok. Qed.
Hint Resolve sok_norm : core.
Lemma sok_read : forall mut y i, sok (read_piece mut y i). Proof. intros. destruct i; unfold read_piece; sok. Qed.
Hint Resolve sok_read : core.
Lemma sok_place : forall w y ws l c, sok (place_words w y ws l c).
Proof. intros w y. induction ws as [|x ws IH]; intros l c; cbn [place_words]; [auto|]. sok. Qed.
Hint Resolve sok_place : core.
Lemma sok_pieces : forall mut w y iss l c, sok (place_pieces mut w y iss l c).
Proof. intros mut w y. induction iss as [|x iss IH]; intros l c; cbn [place_pieces]; [auto|]. sok. Qed.
Hint Resolve sok_pieces : core.
Lemma sok_lines : forall mut iss w y, sok (textLines mut iss w y). Proof. intros. unfold textLines. sok. Qed.
Hint Resolve sok_lines : core.
Lemma sok_lh : forall n y, sok (lines_height n y). Proof. intros. unfold lines_height. sok. Qed.
Hint Resolve sok_lh : core.
Lemma sok_height : forall mut iss w y, sok (textHeight mut iss w y). Proof. intros. unfold textHeight. sok. Qed.
Hint Resolve sok_height : core.
Lemma sok_try : forall parts w i, sok (try_parts parts w i).
Proof. intros parts w. induction i as [|i IH]; cbn [try_parts]; [auto|]. sok. Qed.
Hint Resolve sok_try : core.
Lemma sok_tryH : forall hy w t c, sok (tryHyphenate hy w t c). Proof. intros. unfold tryHyphenate. sok. Qed.
Hint Resolve sok_tryH : core.
Lemma sok_place_h : forall hy w y ws l c, sok (place_words_h hy w y ws l c).
Proof. intros hy w y. induction ws as [|x ws IH]; intros l c; cbn [place_words_h]; [auto|]. sok. Qed.
Hint Resolve sok_place_h : core.
Lemma sok_pieces_h : forall mut hy w y iss l c, sok (place_pieces_h mut hy w y iss l c).
Proof. intros mut hy w y. induction iss as [|x iss IH]; intros l c; cbn [place_pieces_h]; [auto|]. sok. Qed.
Hint Resolve sok_pieces_h : core.
Lemma sok_lines_h : forall mut hy iss w y, sok (textLinesHyphenated mut hy iss w y). Proof. intros. unfold textLinesHyphenated. sok. Qed.
Hint Resolve sok_lines_h : core.
Lemma sok_height_h : forall mut hy iss w y, sok (textHeightHyphenated mut hy iss w y). Proof. intros. unfold textHeightHyphenated. sok. Qed.
Hint Resolve sok_height_h : core.
Lemma sok_heightFnc : forall mut hy y iss w y', sok (textHeightFnc mut hy y iss w y'). Proof. intros. unfold textHeightFnc. destruct (beqb _ _); auto. Qed.
Hint Resolve sok_heightFnc : core.
Lemma sok_drawBox : forall a b c d y, sok (drawBox a b c d y). Proof. intros. unfold drawBox, set_draw_color, set_fill_color. sok. Qed.
Hint Resolve sok_drawBox : core.
Lemma sok_align : forall w x y l, sok (align_line w x y l). Proof. intros. unfold align_line. sok. Qed.
Hint Resolve sok_align : core.
Lemma sok_color : forall c, sok (set_text_color c). Proof. intros. unfold set_text_color. sok. Qed.
Hint Resolve sok_color : core.
Lemma sok_page : sok (page_now (eng:=eng)). Proof. unfold page_now. sok. Qed.
Hint Resolve sok_page : core.
Lemma sok_reset : sok (resetStyles (eng:=eng)). Proof. unfold resetStyles. sok. Qed.
Hint Resolve sok_reset : core.
Lemma sok_bth : forall iss w y, sok (box_text_height env iss w y). Proof. intros. unfold box_text_height, p_textHeightFnc. sok. Qed.
Hint Resolve sok_bth : core.
Lemma sok_tbh : forall st iss pa, sok (textBoxHeight env st iss pa). Proof. intros. unfold textBoxHeight. sok. Qed.
Hint Resolve sok_tbh : core.
Lemma sok_image : forall st src pa, sok (renderImage env st src pa). Proof. intros. unfold renderImage. sok. Qed.
Hint Resolve sok_image : core.
Lemma sok_min : forall c h, sok (assignCellMinHeight env c h). Proof. intros. unfold assignCellMinHeight, p_textHeightFnc. cbv zeta. sok. Qed.
Hint Resolve sok_min : core.
Lemma sok_mins : forall cs h, sok (min_heights env cs h).
Proof. induction cs as [|c cs IH]; intros h; cbn [min_heights]; [auto|]. sok. Qed.
Hint Resolve sok_mins : core.
Lemma sok_minsr : forall rs h, sok (min_heights_rows env rs h).
Proof. induction rs as [|c cs IH]; intros h; cbn [min_heights_rows]; [auto|]. sok. Qed.
Hint Resolve sok_minsr : core.
Lemma sok_ah : forall t h, sok (assignHeights env t h). Proof. intros. unfold assignHeights. cbv zeta. sok. Qed.
Hint Resolve sok_ah : core.
Lemma sok_transform : forall st xrows, sok (transformTable env st xrows).
Proof.
  intros. unfold transformTable. apply sok_bind; [auto|intro y]. destruct (buildTable _ _ _ _) as [h t]. destruct (processSpans t h) as [h' t']. sok.
Qed.
Hint Resolve sok_transform : core.
Hint Resolve mok_ret mok_lift : core.
Ltac mok := repeat first [solve [auto] | apply mok_bind; [|intro] | apply mok_lift; solve [sok] | match goal with |- mok (match ?x with _ => _ end) => destruct x end].

Lemma mok_items : forall l, mok (write_items callback l).
Proof. induction l as [|x l IH]; cbn [write_items]; [auto|]. mok. Qed.
Hint Resolve mok_items : core.
Lemma mok_wlines : forall w x y l, mok (write_lines callback w x y l).
Proof. intros w x y. induction l as [|z l IH]; cbn [write_lines]; [auto|]. mok. Qed.
Hint Resolve mok_wlines : core.
Lemma mok_writeText : forall mut iss w y, mok (Lines.writeText callback mut iss w y).
Proof. intros. unfold Lines.writeText. mok. Qed.
Hint Resolve mok_writeText : core.
Lemma mok_spaced : forall w l, mok (write_spaced callback w l).
Proof. intros w. induction l as [|x l IH]; cbn [write_spaced]; [auto|]. mok. Qed.
Hint Resolve mok_spaced : core.
Lemma mok_wlines_h : forall w x y l, mok (write_lines_h callback w x y l).
Proof. intros w x y. induction l as [|z l IH]; cbn [write_lines_h]; [auto|]. cbv zeta. mok. Qed.
Hint Resolve mok_wlines_h : core.
Lemma mok_writeText_h : forall mut hy iss w y, mok (writeTextHyphenated callback mut hy iss w y).
Proof. intros. unfold writeTextHyphenated. mok. Qed.
Hint Resolve mok_writeText_h : core.
Lemma mok_wfnc : forall mut hy y iss w y', mok (writeTextFnc callback mut hy y iss w y').
Proof. intros. unfold writeTextFnc. destruct (beqb _ _); auto. Qed.
Hint Resolve mok_wfnc : core.
Lemma mok_rtext : forall st iss, mok (renderText env callback st iss).
Proof. intros. unfold renderText, p_writeTextFnc. mok. Qed.
Hint Resolve mok_rtext : core.
(** Cells without boxes. *)
Lemma mok_cboxes_plain : forall v pa iss, existsb is_box iss = false -> mok (cell_boxes env callback v pa iss).
Proof.
  intros v pa. induction iss as [|x iss IH]; intros H; cbn [cell_boxes]; [auto|]. cbn [existsb] in H. apply orb_false_elim in H as [H1 H2].
  apply mok_bind; [|intro; exact (IH H2)]. destruct x; try discriminate H1; mok.
Qed.
Lemma mok_cell_plain : forall pa x, existsb is_box (c_iss x) = false -> mok (renderCell env callback pa x).
Proof.
  intros pa x H. unfold renderCell, p_writeTextFnc. cbv zeta. assert (K := fun v pa => mok_cboxes_plain v pa _ H).
  apply mok_bind; [mok|intro]. apply mok_bind; [mok|intro]. apply mok_bind; [mok|intro]. apply K.
Qed.
(** A page break guarded by preventPageBreak. *)
Lemma mok_guarded : forall A (b : bool) (m k : M eng A), (forall s, I s -> ps_prevent s = false -> okres s (m s)) -> mok k ->
  forall s, I s -> okres s ((if negb (ps_prevent s) && b then m else k) s).
Proof.
  intros A b m k Hm Hk s Hs. destruct (ps_prevent s) eqn:E; cbn [negb andb]; [exact (Hk s Hs)|]. destruct b; [exact (Hm s Hs E)|exact (Hk s Hs)].
Qed.
Lemma mok_get : forall A B (f : PS -> A) (k : A -> M eng B), (forall s, I s -> okres s (k (f s) s)) -> mok (bind (lift (get f)) k).
Proof. intros A B f k H s Hs. unfold bind, lift, get. exact (H s Hs). Qed.
Lemma okres_bind : forall A B (m : M eng A) (k : A -> M eng B) s, I s -> okres s (m s) -> (forall a, mok (k a)) -> okres s (bind m k s).
Proof.
  intros A B m k s Hs G Hk. unfold bind. destruct (m s) as [a s1| |]; try exact G.
  assert (G2 := Hk a s1 (Hinv _ _ Hs G)). destruct (k a s1) as [b s2| |]; cbn in *; try exact G2. exact (Htrans _ _ _ G G2).
Qed.
Lemma okres_trans : forall s s1, R s s1 -> forall A (r : res eng A), okres s1 r -> okres s r.
Proof. intros s s1 G A r K. destruct r as [a s2| |]; try exact K. exact (Htrans _ _ _ G K). Qed.
Lemma mok_box : forall st iss pa, mok (renderTextBox env callback st iss pa).
Proof.
  intros. unfold renderTextBox, p_writeTextFnc. cbv zeta. do 5 (apply mok_bind; [auto|intro]).
  apply mok_get. intros s Hs. apply okres_bind; [exact Hs| |].
  - apply mok_guarded; [|auto|exact Hs]. intros s1 Hs1 P. apply okres_bind; [exact Hs1|apply Hauto; assumption|]. intros _. mok.
  - intros [px py]. mok.
Qed.
Hint Resolve mok_box : core.
Lemma mok_cboxes : forall v pa iss, mok (cell_boxes env callback v pa iss).
Proof. intros v pa. induction iss as [|x iss IH]; cbn [cell_boxes]; [auto|]. apply mok_bind; [|intro; exact IH]. mok. Qed.
Hint Resolve mok_cboxes : core.
Lemma mok_cell : forall pa x, mok (renderCell env callback pa x).
Proof. intros. unfold renderCell, p_writeTextFnc. cbv zeta. mok. Qed.
Hint Resolve mok_cell : core.
Lemma mok_cells : forall h cs x y, mok (render_cells env callback h cs x y).
Proof.
  intros h. induction cs as [|c cs IH]; intros x y; cbn [render_cells]; [auto|]. apply mok_bind; [|intro; apply IH].
  destruct (_ || _); [auto|]. destruct (cell_dim h c). auto.
Qed.
Hint Resolve mok_cells : core.
Lemma mok_row : forall h x y r, mok (renderRow env callback h x y r).
Proof. intros. unfold renderRow. mok. Qed.
Hint Resolve mok_row : core.
Lemma mok_header : forall h rows x n i y, mok (repeat_header env callback h rows x n i y).
Proof. intros h rows x. induction n as [|n IH]; intros i y; cbn [repeat_header]; [auto|]. apply mok_bind; [|intro; apply IH]. mok. Qed.
Hint Resolve mok_header : core.
Lemma mok_rows : forall h rows rh x b rest i y, mok (render_rows env callback h rows rh x b i rest y).
Proof.
  intros h rows rh x b. induction rest as [|r rest IH]; intros i y; cbn [render_rows]; [auto|].
  apply mok_get. intros s Hs. apply okres_bind; [exact Hs| |].
  - apply mok_guarded; [|auto|exact Hs]. intros s1 Hs1 P. apply okres_bind; [exact Hs1|apply Hauto; assumption|]. intros _. mok.
  - intros y1. apply mok_bind; [auto|]. intro. apply IH.
Qed.
Hint Resolve mok_rows : core.
Lemma mok_table : forall xt, mok (renderTable env callback xt).
Proof.
  intros [st rh xrows] s Hs. unfold renderTable. 
  assert (G := sok_transform st xrows s Hs). destruct (no_panic env st xrows s) as (h & t & E).
  unfold bind at 1, lift at 1. destruct (transformTable env st xrows s) as [r s1]. cbn [fst snd] in *. subst r.
  assert (Hs1 := Hinv _ _ Hs G).
  assert (K : okres s1 ((if Nat.eqb (t_columnCount t) 0 then lift resetStyles else
     let* pg := lift page_now in
        let bottom := pa_y1 (pg_area pg) in
        let* (x0, y) := lift (query getXY) in
        let* prevent := lift (get ps_prevent) in
        let* y :=
          (if negb prevent && (bottom <? y + head_height h (t_rows t) rh)%num then
             add_page callback ;; let* xy := lift (query getXY) in ret (snd xy)
           else ret y) in
        let* y := render_rows env callback h (t_rows t) rh x0 bottom 0 (t_rows t) y in
        lift (emit (SetY y)) ;;
        lift resetStyles) s1)).
  { destruct (Nat.eqb _ 0); [apply mok_lift; auto|]. revert s1 G Hs1. 
    assert (mok (let* pg := lift page_now in
        let bottom := pa_y1 (pg_area pg) in
        let* (x0, y) := lift (query getXY) in
        let* prevent := lift (get ps_prevent) in
        let* y :=
          (if negb prevent && (bottom <? y + head_height h (t_rows t) rh)%num then
             add_page callback ;; let* xy := lift (query getXY) in ret (snd xy)
           else ret y) in
        let* y := render_rows env callback h (t_rows t) rh x0 bottom 0 (t_rows t) y in
        lift (emit (SetY y)) ;;
        lift resetStyles)); [|intros; apply H; assumption].
    apply mok_bind; [auto|]. intro pg. cbv zeta. apply mok_bind; [auto|]. intros [x0 y].
    apply mok_get. intros s2 Hs2. apply okres_bind; [exact Hs2| |].
    - apply mok_guarded; [|auto|exact Hs2]. intros s3 Hs3 P. apply okres_bind; [exact Hs3|apply Hauto; assumption|]. intros _. mok.
    - intros y1. mok. }
  exact (okres_trans s s1 G _ _ K).
Qed.
Hint Resolve mok_table : core.
Lemma mok_run : forall h rows x l, mok (add_page callback) -> mok (run env callback h rows x l).
Proof.
  intros h rows x l Hp. induction l as [|st l IH]; unfold run; cbn [each]; [auto|]. apply mok_bind; [|intro; exact IH].
  destruct st as [|i y]; cbn [run_step]; [exact Hp|]. unfold draw_row. apply mok_bind; [|intro; auto].
  induction (filter _ _) as [|[j c] l' IH']; cbn [each]; [auto|]. apply mok_bind; [|intro; exact IH']. cbv zeta. destruct (cell_dim h c). auto.
Qed.
Lemma mok_instruction : forall i, (i = IPageBreak -> mok (add_page callback)) -> mok (processInstruction env callback i).
Proof.
  intros i Hp. destruct i; cbn [processInstruction]; auto; try (mok; fail).
  assert (G := grid_main (e_shuffle env) (map gr_areas rows) Hshuffle). destruct (render_grid (e_shuffle env) (map gr_areas rows)); auto. contradiction.
Qed.
Lemma mok_instructions : forall iss, (In IPageBreak iss -> mok (add_page callback)) -> mok (processInstructions env callback iss).
Proof.
  induction iss as [|i iss IH]; intros Hp; cbn [processInstructions]; [auto|]. apply mok_bind.
  - apply mok_instruction. intros ->. apply Hp. left. reflexivity.
  - intros _. apply IH. intros H. apply Hp. right. exact H.
Qed.
End Inv.
