(** Proofs about the fonts a document asks for (C111). *)
From Coq Require Import Lia Permutation.
From Verif Require Import GoStr Num Style Class Instr Engine Layout Grid Table Lines Proc EngineFacts LoadSpec LoadStyleSpec OutputSpec TableView TableSpec TableFacts TableMain TableThms DrawFacts AskSpec.
From Verif Require Font FontThms.
Local Open Scope nat_scope.

Section Walk.
Context {F : Num} (env : Env F) {eng : Engine F}.
Local Notation PS := (PS F eng).
Local Notation mut := (e_mut env).
Local Notation hyph := (e_hyph env).
Variable P : Font F -> Prop.

Definition tok (evs : list (event F)) : Prop := forall f, asked evs f -> P f.
Definition I (s : PS) : Prop := P (SFont (ps_sty s)) /\ tok (ps_trace s).
Lemma tok_nil : tok [].
Proof. intros f [[]|(c & sub & H & _)]. inversion H as [? ? ? ? ? H1|? ? ? ? ? ? ? H1]; subst; destruct H1. Qed.
Lemma call_in_app : forall a b c (sub : list (event F)), call_in (a ++ b) c sub -> call_in a c sub \/ call_in b c sub.
Proof.
  intros a b c sub H. inversion H as [? ? ? ? ? H1 H2|? ? ? ? ? ? ? H1 H2 H3]; subst; apply in_app_or in H1 as [H1|H1].
  - left. exact (K_now _ _ _ _ _ H1 H2).
  - right. exact (K_now _ _ _ _ _ H1 H2).
  - left. exact (K_deep _ _ _ _ _ _ _ H1 H2 H3).
  - right. exact (K_deep _ _ _ _ _ _ _ H1 H2 H3).
Qed.
Lemma tok_app : forall a b, tok a -> tok b -> tok (a ++ b).
Proof.
  intros a b A B f [H|(c & sub & H & K)].
  - rewrite map_app in H. apply in_app_or in H as [H|H]; [apply A|apply B]; left; exact H.
  - apply call_in_app in H as [H|H]; [apply A|apply B]; right; eauto.
Qed.
Lemma tok_event : forall c calls, (forall f, c = Simple (ChangeFont f) -> P f) -> Forall (fun x => tok (snd x)) calls -> tok [Ev c calls].
Proof.
  intros c calls Hc H f [[E|[]]|(c' & sub & K & L)]; [exact (Hc f E)|].
  assert (G : forall c' sub, In (c', sub) calls -> tok sub) by (intros c1 sub1 Hi; exact (proj1 (Forall_forall _ _) H _ Hi)).
  inversion K as [? cm cl c2 sub2 H1 H2|? cm cl c2 sub2 c3 sub3 H1 H2 H3]; subst; destruct H1 as [H1|[]]; injection H1 as <- <-.
  - apply (G _ _ H2). left. exact L.
  - apply (G _ _ H2). right. eauto.
Qed.

(** Steps that only ask for such fonts. *)
Definition sp {A} (m : St eng A) (Q : A -> Prop) : Prop := forall s, I s -> I (snd (m s)) /\ Q (fst (m s)).
Definition mp {A} (m : M eng A) (Q : A -> Prop) : Prop := forall s, I s -> match m s with Ok a s' => I s' /\ Q a | _ => True end.
Local Notation any := (fun _ => True).
Lemma sp_bind : forall A B (m : St eng A) (k : A -> St eng B) Q Q', sp m Q -> (forall a, Q a -> sp (k a) Q') -> sp (sbind m k) Q'.
Proof. intros A B m k Q Q' Hm Hk s Hs. rewrite sbind_pair. destruct (Hm s Hs) as [H1 H2]. exact (Hk _ H2 _ H1). Qed.
Lemma sp_any : forall A (m : St eng A) Q, sp m Q -> sp m any.
Proof. intros A m Q H s Hs. destruct (H s Hs). auto. Qed.
Lemma sp_ret : forall A (a : A) (Q : A -> Prop), Q a -> sp (sret a) Q.
Proof. intros A a Q H s Hs. auto. Qed.
Lemma sp_query : forall A (f : est eng -> A), sp (query f) any.
Proof. intros A f s Hs. auto. Qed.
Lemma sp_sty : sp (get ps_sty) (fun y => P (SFont y)).
Proof. intros s Hs. split; [exact Hs|exact (proj1 Hs)]. Qed.
Lemma sp_emit : forall c, (forall f, c = ChangeFont f -> P f) -> sp (emit c) any.
Proof.
  intros c Hc s [Hs Ht]. split; [|exact Logic.I]. split; [exact Hs|]. cbn [emit snd ps_trace]. apply tok_app; [exact Ht|]. apply tok_event; [|constructor].
  intros f E. injection E as E. exact (Hc f E).
Qed.
Lemma sp_font : forall f, P f -> sp (changeFont f) any.
Proof.
  intros f Hf. unfold changeFont. apply sp_bind with (Q := any).
  - intros s [Hs Ht]. split; [|exact Logic.I]. split; [exact Hf|exact Ht].
  - intros _ _. eapply sp_bind; [apply sp_sty|]. intros y Hy. apply sp_emit. intros g E. injection E as <-. exact Hy.
Qed.
Lemma mp_ret : forall A (a : A) (Q : A -> Prop), Q a -> mp (ret a) Q.
Proof. intros A a Q H s Hs. cbn. auto. Qed.
Lemma mp_lift : forall A (m : St eng A) Q, sp m Q -> mp (lift m) Q.
Proof. intros A m Q H s Hs. unfold lift. destruct (H s Hs) as [H1 H2]. destruct (m s). auto. Qed.
Lemma mp_bind : forall A B (m : M eng A) (k : A -> M eng B) Q Q', mp m Q -> (forall a, Q a -> mp (k a) Q') -> mp (bind m k) Q'.
Proof.
  intros A B m k Q Q' Hm Hk s Hs. unfold bind. assert (G := Hm s Hs). destruct (m s) as [a s1| |]; auto. destruct G as [G1 G2]. exact (Hk a G2 s1 G1).
Qed.
Lemma mp_get : forall A B (f : PS -> A) (k : A -> M eng B) Q, (forall a, mp (k a) Q) -> mp (bind (lift (get f)) k) Q.
Proof. intros A B f k Q H s Hs. unfold bind, lift, get. exact (H (f s) s Hs). Qed.

Ltac plain := let H := fresh in intros ? H; discriminate H.
Ltac sp := repeat first
  [ assumption
  | exact Logic.I
  | apply sp_query | apply sp_sty
  | apply sp_emit; solve [plain | let E := fresh in intros ? E; injection E as <-; assumption]
  | apply sp_font; assumption
  | apply sp_ret; exact Logic.I
  | match goal with |- sp (sbind (get ps_sty) _) _ => eapply sp_bind; [apply sp_sty|intros ? ?] end
  | match goal with |- sp (sbind _ _) _ => apply sp_bind with (Q := any); [|intros ? _] end
  | match goal with |- sp (match ?x with _ => _ end) _ => destruct x end ].

(** ** Text *)
Definition fine (it : textItem F) : Prop := P (SFont (i_sty it)).
Definition fine_line (l : textLine F) : Prop := Forall fine (l_items l).
Definition fine_lines (r : list (textLine F) * textLine F) : Prop := Forall fine_line (fst r) /\ fine_line (snd r).
Definition keepsP (st : Styled F) : Prop := fonts_within env P st.
Definition iok (i : instr F) : Prop := forall j st, part_of i j -> styles_of j = Some st -> keepsP st.
Lemma iok_self : forall i st, iok i -> styles_of i = Some st -> keepsP st.
Proof. intros i st H E. exact (H i st (In_self i) E). Qed.
Lemma keeps_mut : forall st y, keepsP st -> P (SFont y) -> P (SFont (mut st y)).
Proof. intros st y H Hy. exact (proj1 (H y Hy)). Qed.
Lemma iok_box : forall st iss, iok (IBox st iss) -> keepsP st /\ Forall iok iss.
Proof. intros st iss H. split; [exact (iok_self _ st H eq_refl)|]. apply Forall_forall. intros i Hi j st' Hj E. exact (H j st' (In_box st iss i j Hi Hj) E). Qed.
Lemma iok_text : forall st iss, iok (IText st iss) -> keepsP st /\ Forall iok iss.
Proof. intros st iss H. split; [exact (iok_self _ st H eq_refl)|]. apply Forall_forall. intros i Hi j st' Hj E. exact (H j st' (In_text st iss i j Hi Hj) E). Qed.
Lemma iok_row : forall st n rows, iok (ITable (XTable st n rows)) -> keepsP st /\ Forall (fun r => iok (ITableRow r)) rows.
Proof. intros st n rows H. split; [exact (iok_self _ st H eq_refl)|]. apply Forall_forall. intros i Hi j st' Hj E. exact (H j st' (In_table st n rows i j Hi Hj) E). Qed.
Lemma iok_cells : forall st cs, iok (ITableRow (XRow st cs)) -> keepsP st /\ Forall (fun r => iok (ITableCell r)) cs.
Proof. intros st cs H. split; [exact (iok_self _ st H eq_refl)|]. apply Forall_forall. intros i Hi j st' Hj E. exact (H j st' (In_row st cs i j Hi Hj) E). Qed.
Lemma iok_cell : forall st c r iss, iok (ITableCell (XCell st c r iss)) -> keepsP st /\ Forall iok iss.
Proof. intros st c r iss H. split; [exact (iok_self _ st H eq_refl)|]. apply Forall_forall. intros i Hi j st' Hj E. exact (H j st' (In_cell st c r iss i j Hi Hj) E). Qed.

Definition fine_piece (p : piece) : Prop := match p with PItem it => fine it | _ => True end.
Lemma sp_norm : forall t, sp (norm (eng:=eng) t) any.
Proof. intros t. unfold norm, tr. sp. Qed.
Lemma sp_read : forall y i, P (SFont y) -> iok i -> sp (read_piece mut y i) fine_piece.
Proof.
  intros y i Hy Hi. destruct i; cbn [read_piece]; try (apply sp_ret; exact Logic.I).
  - eapply sp_bind; [apply sp_norm|]. intros t' _. apply sp_ret. exact Hy.
  - eapply sp_bind; [apply sp_norm|]. intros t' _. apply sp_ret. exact (keeps_mut _ _ (iok_self _ _ Hi eq_refl) Hy).
Qed.
Lemma fine_add : forall (l : textLine F) it w p b, fine_line l -> fine it -> fine_line (mkLine (l_items l ++ [it]) w p b).
Proof. intros l it w p b Hl Hi. apply Forall_app. split; [exact Hl|]. constructor; [exact Hi|constructor]. Qed.
Lemma fine_empty : fine_line empty_line.
Proof. constructor. Qed.
Lemma fine_snoc : forall ls (l : textLine F), Forall fine_line ls -> fine_line l -> Forall fine_line (ls ++ [l]).
Proof. intros ls l A B. apply Forall_app. split; [exact A|]. constructor; [exact B|constructor]. Qed.
Hint Resolve fine_add fine_empty fine_snoc : core.
Lemma sp_words : forall w y ws ls c, P (SFont y) -> Forall fine_line ls -> fine_line c -> sp (place_words (eng:=eng) w y ws ls c) fine_lines.
Proof.
  intros w y. induction ws as [|x ws IH]; intros ls c Hy Hl Hc; cbn [place_words]; [apply sp_ret; split; assumption|].
  apply sp_bind with (Q := any); [apply sp_query|]. intros iw _. destruct (leb _ _); apply IH; auto.
Qed.
Lemma sp_pieces : forall w y iss ls c, P (SFont y) -> Forall iok iss -> Forall fine_line ls -> fine_line c -> sp (place_pieces (eng:=eng) mut w y iss ls c) fine_lines.
Proof.
  intros w y. induction iss as [|x iss IH]; intros ls c Hy Hi Hl Hc; cbn [place_pieces]; [apply sp_ret; split; assumption|].
  apply Forall_cons_iff in Hi as [Hx Hi]. eapply sp_bind; [apply (sp_read y x Hy Hx)|]. intros p Hp. destruct p as [|it|]; [apply IH; auto| |apply IH; auto].
  destruct (i_text it) eqn:Et; [apply IH; auto|]. apply sp_bind with (Q := any); [apply sp_font; exact Hp|]. intros _ _.
  eapply sp_bind; [apply sp_words; [exact Hp|exact Hl|exact Hc]|]. intros [ls' c'] [H1 H2]. apply IH; auto.
Qed.
Lemma sp_lines : forall iss w y, P (SFont y) -> Forall iok iss -> sp (textLines (eng:=eng) mut iss w y) (Forall fine_line).
Proof.
  intros iss w y Hy Hi. unfold textLines. eapply sp_bind; [apply sp_pieces; auto|]. intros [ls c] [H1 H2]. cbn [fst snd] in *. apply sp_ret. destruct (l_items c); auto.
Qed.
Lemma sp_lh : forall n (y : Styles F), sp (lines_height (eng:=eng) n y) any.
Proof. intros n y. unfold lines_height. sp. Qed.
Lemma sp_height : forall iss w y, P (SFont y) -> Forall iok iss -> sp (textHeight (eng:=eng) mut iss w y) any.
Proof.
  intros iss w y Hy Hi. unfold textHeight. apply sp_bind with (Q := any); [sp|]. intros _ _. eapply sp_bind; [apply sp_lines; auto|]. intros ls _. apply sp_lh.
Qed.
Lemma sp_try : forall parts w i, sp (try_parts (eng:=eng) parts w i) any.
Proof. intros parts w. induction i as [|i IH]; cbn [try_parts]; [apply sp_ret; exact Logic.I|]. sp. Qed.
Lemma sp_tryH : forall w t c, sp (tryHyphenate (eng:=eng) hyph w t c) any.
Proof. intros. unfold tryHyphenate. destruct (_ <? _); [apply sp_ret; exact Logic.I|apply sp_try]. Qed.
Lemma sp_words_h : forall w y ws ls c, P (SFont y) -> Forall fine_line ls -> fine_line c -> sp (place_words_h (eng:=eng) hyph w y ws ls c) fine_lines.
Proof.
  intros w y. induction ws as [|x ws IH]; intros ls c Hy Hl Hc; cbn [place_words_h]; [apply sp_ret; split; assumption|].
  apply sp_bind with (Q := any); [apply sp_query|]. intros iw _. apply sp_bind with (Q := any); [apply sp_query|]. intros pw _.
  apply sp_bind with (Q := fun r => let '(ls, c, _, _, _) := r in Forall fine_line ls /\ fine_line c).
  - destruct (leb _ _); [|apply sp_ret; auto]. apply sp_bind with (Q := any); [apply sp_tryH|]. intros [[s1 s2]|] _; [|apply sp_ret; auto].
    repeat (apply sp_bind with (Q := any); [apply sp_query|intros ? _]). apply sp_ret. auto.
  - intros [[[[ls' c'] wd] a] b] [H1 H2]. apply IH; auto.
Qed.
Lemma fine_mark : forall ls, Forall fine_line ls -> Forall fine_line (mark_last ls).
Proof.
  intros ls H. unfold mark_last. apply Forall_rev in H. destruct (rev ls) as [|l r]; [constructor|]. apply Forall_cons_iff in H as [H1 H2].
  apply fine_snoc; [apply Forall_rev; exact H2|exact H1].
Qed.
Hint Resolve fine_mark : core.
Lemma sp_pieces_h : forall w y iss ls c, P (SFont y) -> Forall iok iss -> Forall fine_line ls -> fine_line c -> sp (place_pieces_h (eng:=eng) mut hyph w y iss ls c) fine_lines.
Proof.
  intros w y. induction iss as [|x iss IH]; intros ls c Hy Hi Hl Hc; cbn [place_pieces_h]; [apply sp_ret; split; assumption|].
  apply Forall_cons_iff in Hi as [Hx Hi]. eapply sp_bind; [apply (sp_read y x Hy Hx)|]. intros p Hp. destruct p as [|it|]; [apply IH; auto| |apply IH; auto].
  apply sp_bind with (Q := any); [apply sp_font; exact Hp|]. intros _ _.
  eapply sp_bind; [apply sp_words_h; [exact Hp|exact Hl|exact Hc]|]. intros [ls' c'] [H1 H2]. apply IH; auto.
Qed.
Lemma sp_lines_h : forall iss w y, P (SFont y) -> Forall iok iss -> sp (textLinesHyphenated (eng:=eng) mut hyph iss w y) (Forall fine_line).
Proof.
  intros iss w y Hy Hi. unfold textLinesHyphenated. eapply sp_bind; [apply sp_pieces_h; auto|]. intros [ls c] [H1 H2]. cbn [fst snd] in *. apply sp_ret.
  unfold fine_line in H2. destruct (l_items c) eqn:E; [exact H1|]. apply fine_snoc; [exact H1|]. exact H2.
Qed.
Lemma sp_height_h : forall iss w y, P (SFont y) -> Forall iok iss -> sp (textHeightHyphenated (eng:=eng) mut hyph iss w y) any.
Proof.
  intros iss w y Hy Hi. unfold textHeightHyphenated. apply sp_bind with (Q := any); [sp|]. intros _ _. eapply sp_bind; [apply sp_lines_h; auto|]. intros ls _. apply sp_lh.
Qed.
Lemma sp_heightFnc : forall y iss w y', P (SFont y') -> Forall iok iss -> sp (textHeightFnc (eng:=eng) mut hyph y iss w y') any.
Proof. intros. unfold textHeightFnc. destruct (beqb _ _); [apply sp_height_h|apply sp_height]; assumption. Qed.
Lemma sp_box : forall a b c d (y : Styles F), sp (drawBox (eng:=eng) a b c d y) any.
Proof. intros. unfold drawBox, set_draw_color, set_fill_color. sp. Qed.
Lemma sp_align : forall w x (y : Styles F) l, sp (align_line (eng:=eng) w x y l) any.
Proof. intros. unfold align_line. sp. Qed.
Lemma sp_color : forall c, sp (set_text_color (F:=F) (eng:=eng) c) any.
Proof. intros. unfold set_text_color. sp. Qed.
Lemma sp_page : sp (page_now (eng:=eng)) any.
Proof. unfold page_now. sp. Qed.
Lemma sp_reset : sp (resetStyles (eng:=eng)) any.
Proof. unfold resetStyles. sp. Qed.
Lemma sp_bth : forall iss w y, P (SFont y) -> Forall iok iss -> sp (box_text_height (eng:=eng) env iss w y) any.
Proof. intros iss w y Hy Hi. unfold box_text_height, p_textHeightFnc. destruct (leb _ _); [|apply sp_ret; exact Logic.I]. destruct iss; [apply sp_query|apply sp_heightFnc; assumption]. Qed.
Lemma sp_tbh : forall st iss pa, keepsP st -> Forall iok iss -> sp (textBoxHeight (eng:=eng) env st iss pa) any.
Proof.
  intros st iss pa Hst Hi. unfold textBoxHeight. eapply sp_bind; [apply sp_sty|]. intros y Hy. cbv zeta. apply sp_bind with (Q := any); [apply sp_bth; [exact (keeps_mut _ _ Hst Hy)|exact Hi]|].
  intros h _. apply sp_bind with (Q := any); [apply sp_reset|]. intros _ _. apply sp_ret. exact Logic.I.
Qed.
Lemma sp_image : forall st src pa, sp (renderImage (eng:=eng) env st src pa) any.
Proof. intros. unfold renderImage. cbv zeta. sp. Qed.

(** ** Tables *)
Definition cell_ok (h : heap F) (c : cid) : Prop := authored h c = true -> P (SFont (c_sty (deref h c))) /\ Forall iok (c_iss (deref h c)).
Definition same_static (h h' : heap F) : Prop := forall c, c_sty (deref h' c) = c_sty (deref h c) /\ c_iss (deref h' c) = c_iss (deref h c) /\ authored h' c = authored h c.
Lemma static_refl : forall h, same_static h h.
Proof. intros h c. auto. Qed.
Lemma static_trans : forall a b c, same_static a b -> same_static b c -> same_static a c.
Proof. intros a b c A B x. destruct (A x) as (A1 & A2 & A3). destruct (B x) as (B1 & B2 & B3). rewrite B1, B2, B3. auto. Qed.
Lemma static_update : forall c f h, (forall x, c_sty (f x) = c_sty x /\ c_iss (f x) = c_iss x /\ c_spannedBy (f x) = c_spannedBy x /\ c_zero (f x) = c_zero x) -> same_static h (update c f h).
Proof.
  intros c f h H x. unfold authored. destruct (Nat.eq_dec x c) as [->|N]; [rewrite deref_update_eq|rewrite deref_update_ne by exact N; auto].
  destruct (H (deref h c)) as (H1 & H2 & H3 & H4). rewrite H1, H2, H3, H4. auto.
Qed.
Lemma static_fold : forall A (f : heap F -> A -> heap F) l h, (forall h a, same_static h (f h a)) -> same_static h (fold_left f l h).
Proof. intros A f. induction l as [|a l IH]; intros h H; [apply static_refl|]. cbn [fold_left]. eapply static_trans; [apply H|]. apply IH. exact H. Qed.
Lemma static_min : forall v c h, same_static h (update c (with_minHeight v) h).
Proof. intros. apply static_update. intros x. auto. Qed.
Lemma static_height : forall v c h, same_static h (update c (with_height v) h).
Proof. intros. apply static_update. intros x. auto. Qed.
Lemma static_heights : forall rows h, same_static h (set_heights rows h).
Proof. intros. unfold set_heights. apply static_fold. intros h' r. apply static_fold. intros h'' c. apply static_height. Qed.
Lemma ok_static : forall h h' c, same_static h h' -> cell_ok h c -> cell_ok h' c.
Proof. intros h h' c S H. destruct (S c) as (S1 & S2 & S3). unfold cell_ok. rewrite S1, S2, S3. exact H. Qed.
Lemma ok_static_back : forall h h' c, same_static h h' -> cell_ok h' c -> cell_ok h c.
Proof. intros h h' c S H. destruct (S c) as (S1 & S2 & S3). unfold cell_ok in H. rewrite S1, S2, S3 in H. exact H. Qed.

Lemma min_static : forall c h (s : PS), same_static h (fst (assignCellMinHeight env c h s)).
Proof.
  intros c h s. unfold assignCellMinHeight. cbv zeta. destruct (_ || _); [apply static_refl|]. destruct (ltb _ _); [apply static_min|].
  rewrite sbind_pair. cbn [sret fst]. eapply static_trans; [apply static_min|]. apply static_fold. intros h' a. apply static_min.
Qed.
Lemma sp_min : forall c h, cell_ok h c -> sp (assignCellMinHeight env c h) (same_static h).
Proof.
  intros c h Hc s Hs. split; [|apply min_static]. revert s Hs. change (forall s, I s -> I (snd (assignCellMinHeight env c h s))).
  assert (G : sp (assignCellMinHeight env c h) any); [|intros s Hs; exact (proj1 (G s Hs))].
  unfold assignCellMinHeight, p_textHeightFnc. cbv zeta. destruct (_ || _) eqn:Ea; [apply sp_ret; exact Logic.I|]. destruct (ltb _ _); [apply sp_ret; exact Logic.I|].
  assert (Ha : authored h c = true). { unfold authored. destruct (c_spannedBy (deref h c)); [discriminate Ea|]. cbn in Ea. rewrite Ea. reflexivity. }
  destruct (Hc Ha) as [H1 H2]. apply sp_bind with (Q := any); [apply sp_heightFnc; assumption|]. intros th _. apply sp_ret. exact Logic.I.
Qed.
Lemma sp_mins : forall cs h, Forall (cell_ok h) cs -> sp (min_heights env cs h) (same_static h).
Proof.
  induction cs as [|c cs IH]; intros h H; cbn [min_heights]; [apply sp_ret, static_refl|]. apply Forall_cons_iff in H as [Hc H].
  eapply sp_bind; [apply sp_min; exact Hc|]. intros h1 S s Hs. destruct (IH h1 (Forall_impl _ (fun c => ok_static h h1 c S) H) s Hs) as [A B]. split; [exact A|exact (static_trans _ _ _ S B)].
Qed.
Lemma sp_minsr : forall rs h, Forall (cell_ok h) (flat_map r_cells rs) -> sp (min_heights_rows env rs h) (same_static h).
Proof.
  induction rs as [|r rs IH]; intros h H; cbn [min_heights_rows]; [apply sp_ret, static_refl|]. cbn [flat_map] in H. apply Forall_app in H as [Hc H].
  eapply sp_bind; [apply sp_mins; exact Hc|]. intros h1 S s Hs. destruct (IH h1 (Forall_impl _ (fun c => ok_static h h1 c S) H) s Hs) as [A B]. split; [exact A|exact (static_trans _ _ _ S B)].
Qed.

(** The styles of the cells of a table. *)
Lemma table_ok : forall st n xrows (s : PS) h t s', transformTable env st xrows s = (Some (h, t), s') -> iok (ITable (XTable st n xrows)) -> P (SFont (ps_sty s)) ->
  Forall (cell_ok h) (flat_map r_cells (t_rows t)).
Proof.
  intros st n xrows s h t s' HT Hi Hs. apply iok_row in Hi as [Hst Hr]. destruct (all_styles _ _ _ _ _ _ _ HT) as [Et Hy].
  assert (Kc := keeps_cells _ _ _ _ _ _ _ HT). apply Forall_forall. intros c Hc Ha. apply in_flat_map in Hc as (row & Hrow & Hc).
  apply In_nth_error in Hrow as (i & Ei). specialize (Kc i). unfold cells in Kc. rewrite Ei in Kc.
  assert (Hf : In c (filter (authored h) (r_cells row))) by (apply filter_In; auto). apply In_nth_error in Hf as (k & Ek).
  unfold xcells in Kc. destruct (nth_error xrows i) as [[x l]|] eqn:Ex; [|destruct (filter (authored h) (r_cells row)); [destruct k; discriminate Ek|discriminate Kc]].
  destruct (Hy i x l Ex) as (row' & Er & Ers & Hl). rewrite Ei in Er. injection Er as <-.
  destruct (iok_cells x l (proj1 (Forall_forall _ _) Hr _ (nth_error_In _ _ Ex))) as [Hx Hcs].
  assert (Hn := f_equal (fun l => nth_error l k) Kc). cbn beta in Hn. rewrite !nth_error_map, Ek in Hn. cbn [option_map] in Hn.
  destruct (nth_error l k) as [[y cs rs iss]|] eqn:El; [|discriminate Hn]. cbn [option_map xcontent] in Hn. injection Hn as Hn _ _.
  destruct (Hl k y cs rs iss El) as (c' & Ec & Es). rewrite Ek in Ec. injection Ec as <-.
  destruct (iok_cell y cs rs iss (proj1 (Forall_forall _ _) Hcs _ (nth_error_In _ _ El))) as [Hyk Hiss].
  assert (Pt : P (SFont (t_sty t))) by (rewrite Et; exact (keeps_mut _ _ Hst Hs)).
  assert (Pr : P (SFont (r_sty row))). { rewrite Ers. destruct (Hx _ Pt) as [X1 X2]. destruct (i =? 0); [apply X2|]. destruct (i =? _); [apply X2|exact X1]. }
  split; [|rewrite Hn; exact Hiss]. rewrite Es. destruct (Hyk _ Pr) as [X1 X2]. destruct (k =? 0); [apply X2|]. destruct (k =? _); [apply X2|exact X1].
Qed.
Lemma heights_static : forall t h (s : PS), same_static h (fst (fst (assignHeights env t h s))) /\ map r_cells (t_rows (snd (fst (assignHeights env t h s)))) = map r_cells (t_rows t).
Proof.
  intros t h s. unfold assignHeights. rewrite sbind_pair. cbn [sret fst snd t_rows]. split; [|rewrite map_map; reflexivity].
  eapply static_trans; [|apply static_heights]. revert h s. induction (t_rows t) as [|r rs IH]; intros h s; cbn [min_heights_rows]; [apply static_refl|].
  rewrite sbind_pair. eapply static_trans; [|apply IH]. revert h s. induction (r_cells r) as [|c cs IHc]; intros h s; cbn [min_heights]; [apply static_refl|].
  rewrite sbind_pair. eapply static_trans; [|apply IHc]. apply min_static.
Qed.
Lemma sp_transform : forall st n xrows, iok (ITable (XTable st n xrows)) ->
  sp (transformTable env st xrows) (fun r => match r with Some (h, t) => Forall (cell_ok h) (flat_map r_cells (t_rows t)) | None => True end).
Proof.
  intros st n xrows Hi s Hs.
  assert (G := table_ok st n xrows s). destruct (transformTable env st xrows s) as [r s'] eqn:E. cbn [fst snd].
  assert (K : match r with Some (h, t) => Forall (cell_ok h) (flat_map r_cells (t_rows t)) | None => True end).
  { destruct r as [[h t]|]; [|exact Logic.I]. exact (G h t s' eq_refl Hi (proj1 Hs)). }
  split; [|exact K]. clear G. unfold transformTable in E. rewrite sbind_pair in E. cbn [get fst snd] in E.
  destruct (buildTable _ _ _ _) as [h0 t0]. destruct (processSpans t0 h0) as [h1 t1]. rewrite sbind_pair in E.
  assert (Hp : snd (page_now (eng:=eng) s) = s) by (unfold page_now; rewrite sbind_pair; cbn [query fst snd]; destruct (printableArea (ps_eng s)) as [[[? ?] ?] ?]; reflexivity). rewrite Hp in E.
  destruct (assignColumnWidths _ _ _) as [h2|]; [|injection E as <- <-; exact Hs]. rewrite sbind_pair in E. injection E as <- <-.
  destruct (heights_static t1 h2 s) as [S1 S2]. destruct (assignHeights env t1 h2 s) as [[h3 t3] s3] eqn:Ea. cbn [fst snd] in *.
  assert (Gc : Forall (cell_ok h2) (flat_map r_cells (t_rows t1))).
  { rewrite flat_map_concat_map, <- S2, <- flat_map_concat_map. exact (Forall_impl _ (fun c => ok_static_back h2 h3 c S1) K). }
  unfold assignHeights in Ea. rewrite sbind_pair in Ea. injection Ea as _ _ <-. exact (proj1 (sp_minsr (t_rows t1) h2 Gc s Hs)).
Qed.

(** ** Drawing *)
Variable callback : cb -> M eng unit.
Hypothesis Hcb : forall c, mp (callback c) any.
Lemma run_calls_ok : forall prog acc s, I s -> Forall (fun x => tok (snd x)) acc ->
  match run_calls callback prog acc s with Ok calls s' => P (SFont (ps_sty s')) /\ Forall (fun x => tok (snd x)) calls | _ => True end.
Proof.
  induction prog as [e|c e k IH]; intros acc s Hs Ha; cbn [run_calls]; [split; [exact (proj1 Hs)|exact Ha]|].
  assert (G := Hcb c (set_eng e (set_trace [] s)) (conj (proj1 Hs) tok_nil)). destruct (callback c _) as [[] s1| |]; auto. destruct G as [G _].
  apply IH; [exact G|]. apply Forall_app. split; [exact Ha|]. constructor; [exact (proj2 G)|constructor].
Qed.
Lemma mp_command : forall c prog, (forall f, c <> Simple (ChangeFont f)) -> mp (command callback c prog) any.
Proof.
  intros c prog Hc s Hs. unfold command. assert (G := run_calls_ok (prog (ps_eng s)) [] s Hs (Forall_nil _)). destruct (run_calls callback _ _ _) as [calls s1| |]; auto.
  destruct G as [G1 G2]. split; [|exact Logic.I]. split; [exact G1|]. cbn [set_trace ps_trace]. apply tok_app; [exact (proj2 Hs)|]. apply tok_event; [|exact G2]. intros f E. contradiction (Hc f E).
Qed.
Lemma mp_page : mp (add_page callback) any.
Proof. apply mp_command. discriminate. Qed.
Lemma mp_write : forall t, mp (write_text callback t) any.
Proof. intros t. apply mp_command. discriminate. Qed.
Lemma mp_pdf : mp (write_pdf callback) any.
Proof. apply mp_command. discriminate. Qed.
Ltac mp := repeat first
  [ assumption | apply mp_page | apply mp_write | apply mp_ret; exact Logic.I
  | apply mp_lift; solve [sp]
  | match goal with |- mp (bind (lift (get ps_sty)) _) _ => eapply mp_bind; [apply mp_lift, sp_sty|intros ? ?] end
  | match goal with |- mp (bind _ _) _ => apply mp_bind with (Q := any); [|intros ? _] end
  | match goal with |- mp (match ?x with _ => _ end) _ => destruct x end ].
Lemma mp_items : forall l, Forall fine l -> mp (write_items callback l) any.
Proof. induction l as [|x l IH]; intros H; cbn [write_items]; [mp|]. apply Forall_cons_iff in H as [Hx H]. specialize (IH H). unfold fine in Hx. mp. Qed.
Lemma mp_spaced : forall w l, Forall fine l -> mp (write_spaced callback w l) any.
Proof. intros w. induction l as [|x l IH]; intros H; cbn [write_spaced]; [mp|]. apply Forall_cons_iff in H as [Hx H]. specialize (IH H). unfold fine in Hx. mp. Qed.
Lemma mp_lines : forall w x y l, Forall fine_line l -> mp (write_lines callback w x y l) any.
Proof.
  intros w x y. induction l as [|z l IH]; intros H; cbn [write_lines]; [mp|]. apply Forall_cons_iff in H as [Hz H]. specialize (IH H).
  apply mp_bind with (Q := any); [apply mp_lift, sp_align|]. intros _ _. apply mp_bind with (Q := any); [apply mp_items; exact Hz|]. intros _ _. mp.
Qed.
Lemma mp_lines_h : forall w x y l, Forall fine_line l -> mp (write_lines_h callback w x y l) any.
Proof.
  intros w x y. induction l as [|z l IH]; intros H; cbn [write_lines_h]; [mp|]. apply Forall_cons_iff in H as [Hz H]. specialize (IH H).
  apply mp_bind with (Q := any); [mp|]. intros _ _. cbv zeta. apply mp_bind with (Q := any); [destruct (_ || _); [apply mp_items|apply mp_spaced]; exact Hz|]. intros _ _. mp.
Qed.
Lemma mp_fnc : forall sty iss w y, P (SFont y) -> Forall iok iss -> mp (p_writeTextFnc env callback sty iss w y) any.
Proof.
  intros sty iss w y Hy Hi. unfold p_writeTextFnc, writeTextFnc. destruct (beqb _ _).
  - unfold writeTextHyphenated. apply mp_bind with (Q := any); [mp|]. intros _ _. apply mp_bind with (Q := any); [apply mp_lift, sp_color|]. intros _ _.
    eapply mp_bind; [apply mp_lift, sp_lines_h; assumption|]. intros ls Hl. apply mp_bind with (Q := any); [mp|]. intros xy _. apply mp_lines_h. exact Hl.
  - unfold Lines.writeText. apply mp_bind with (Q := any); [mp|]. intros _ _. apply mp_bind with (Q := any); [apply mp_lift, sp_color|]. intros _ _.
    eapply mp_bind; [apply mp_lift, sp_lines; assumption|]. intros ls Hl. apply mp_bind with (Q := any); [mp|]. intros xy _. apply mp_lines. exact Hl.
Qed.
Lemma mp_reset : mp (lift (resetStyles (eng:=eng))) any.
Proof. apply mp_lift, sp_reset. Qed.
Lemma mp_text : forall st iss, keepsP st -> Forall iok iss -> mp (renderText env callback st iss) any.
Proof.
  intros st iss Hst Hi. unfold renderText. destruct iss as [|i iss]; [mp|]. eapply mp_bind; [apply mp_lift, sp_sty|]. intros y Hy. cbv zeta. apply mp_bind with (Q := any); [apply mp_lift, sp_page|]. intros pg _.
  apply mp_bind with (Q := any); [apply mp_fnc; [exact (keeps_mut _ _ Hst Hy)|exact Hi]|]. intros _ _. apply mp_reset.
Qed.
Lemma mp_tbox : forall st iss pa, keepsP st -> Forall iok iss -> mp (renderTextBox env callback st iss pa) any.
Proof.
  intros st iss pa Hst Hi. unfold renderTextBox. eapply mp_bind; [apply mp_lift, sp_sty|]. intros y Hy. cbv zeta. assert (Hm := keeps_mut _ _ Hst Hy).
  apply mp_bind with (Q := any); [apply mp_lift, sp_bth; assumption|]. intros h _.
  do 3 (apply mp_bind with (Q := any); [mp|intros ? _]). apply mp_get. intros prevent. apply mp_bind with (Q := any); [mp|]. intros [x0 y0] _.
  apply mp_bind with (Q := any); [apply mp_lift, sp_box|]. intros _ _. do 2 (apply mp_bind with (Q := any); [mp|intros ? _]).
  apply mp_bind with (Q := any); [destruct iss; [mp|apply mp_fnc; assumption]|]. intros _ _. apply mp_bind with (Q := any); [mp|]. intros _ _. apply mp_reset.
Qed.
Lemma mp_cboxes : forall v pa iss, Forall iok iss -> mp (cell_boxes env callback v pa iss) any.
Proof.
  intros v pa. induction iss as [|x iss IH]; intros H; cbn [cell_boxes]; [mp|]. apply Forall_cons_iff in H as [Hx H]. apply mp_bind with (Q := any); [|intros _ _; exact (IH H)].
  destruct x; try (apply mp_ret; exact Logic.I).
  - apply iok_box in Hx as [Hst Hi]. apply mp_bind with (Q := any); [apply mp_lift, sp_tbh; assumption|]. intros h _. apply mp_bind with (Q := any); [mp|]. intros _ _. apply mp_tbox; assumption.
  - apply mp_bind with (Q := any); [mp|]. intros _ _. apply mp_lift, sp_image.
Qed.
Lemma mp_cell : forall pa x, P (SFont (c_sty x)) -> Forall iok (c_iss x) -> mp (renderCell env callback pa x) any.
Proof.
  intros pa x Hx Hi. unfold renderCell. cbv zeta. apply mp_bind with (Q := any); [apply mp_lift, sp_box|]. intros _ _.
  apply mp_bind with (Q := any).
  - destruct (c_iss x) as [|i iss] eqn:E; [mp|]. apply mp_bind with (Q := any); [apply mp_lift, sp_height; assumption|]. intros th _.
    apply mp_bind with (Q := any); [apply mp_lift; sp|intros _ _]. apply mp_bind with (Q := any); [mp|intros _ _]. apply mp_fnc; assumption.
  - intros _ _. apply mp_bind with (Q := any); [mp|]. intros _ _. apply mp_cboxes. exact Hi.
Qed.
Lemma mp_cells : forall h cs x y, Forall (cell_ok h) cs -> mp (render_cells env callback h cs x y) any.
Proof.
  intros h. induction cs as [|c cs IH]; intros x y H; cbn [render_cells]; [mp|]. apply Forall_cons_iff in H as [Hc H]. apply mp_bind with (Q := any); [|intros _ _; apply IH; exact H].
  destruct (_ || _) eqn:Ea; [mp|]. destruct (cell_dim h c).
  assert (Ha : authored h c = true). { unfold authored. destruct (c_spannedBy (deref h c)); [discriminate Ea|]. cbn in Ea. rewrite Ea. reflexivity. }
  destruct (Hc Ha). apply mp_cell; assumption.
Qed.
Lemma mp_row : forall h x y (r : trow F), Forall (cell_ok h) (r_cells r) -> mp (renderRow env callback h x y r) any.
Proof. intros h x y r H. unfold renderRow. apply mp_bind with (Q := any); [apply mp_cells; exact H|]. intros _ _. mp. Qed.
Lemma rows_in : forall h (rows : list (trow F)) i r, Forall (cell_ok h) (flat_map r_cells rows) -> nth_error rows i = Some r -> Forall (cell_ok h) (r_cells r).
Proof.
  intros h rows i r H E. apply Forall_forall. intros c Hc. apply (proj1 (Forall_forall _ _) H). apply in_flat_map. exists r. split; [exact (nth_error_In _ _ E)|exact Hc].
Qed.
Lemma mp_header : forall h rows x n i y, Forall (cell_ok h) (flat_map r_cells rows) -> mp (repeat_header env callback h rows x n i y) any.
Proof.
  intros h rows x n i y H. revert i y. induction n as [|n IH]; intros i y; cbn [repeat_header]; [mp|]. apply mp_bind with (Q := any); [|intros y' _; apply IH].
  destruct (nth_error rows i) eqn:E; [apply mp_row; exact (rows_in h rows i t H E)|mp].
Qed.
Lemma mp_rows : forall h rows rh x b rest i y, Forall (cell_ok h) (flat_map r_cells rows) -> Forall (cell_ok h) (flat_map r_cells rest) -> mp (render_rows env callback h rows rh x b i rest y) any.
Proof.
  intros h rows rh x b. induction rest as [|r rest IH]; intros i y H Hr; cbn [render_rows]; [mp|]. cbn [flat_map] in Hr. apply Forall_app in Hr as [Hr1 Hr2].
  apply mp_get. intros prevent. apply mp_bind with (Q := any).
  - destruct (_ && _); [|mp]. apply mp_bind with (Q := any); [apply mp_page|]. intros _ _. apply mp_bind with (Q := any); [mp|]. intros xy _. destruct (_ && _); [apply mp_header; exact H|mp].
  - intros y1 _. apply mp_bind with (Q := any); [apply mp_row; exact Hr1|]. intros y2 _. apply IH; assumption.
Qed.
Lemma mp_table : forall xt, iok (ITable xt) -> mp (renderTable env callback xt) any.
Proof.
  intros [st rh xrows] Hi. unfold renderTable. eapply mp_bind; [apply mp_lift; exact (sp_transform st rh xrows Hi)|]. intros [[h t]|] Ht; [|intros s Hs; exact Logic.I].
  destruct (Nat.eqb _ 0); [apply mp_reset|]. apply mp_bind with (Q := any); [apply mp_lift, sp_page|]. intros pg _. cbv zeta. apply mp_bind with (Q := any); [mp|]. intros [x0 y] _.
  apply mp_get. intros prevent. apply mp_bind with (Q := any); [mp|]. intros y1 _. apply mp_bind with (Q := any); [apply mp_rows; exact Ht|]. intros y2 _.
  apply mp_bind with (Q := any); [mp|]. intros _ _. apply mp_reset.
Qed.
Lemma mp_instruction : forall i, iok i -> mp (processInstruction env callback i) any.
Proof.
  intros i Hi. destruct i; cbn [processInstruction]; try (mp; fail).
  - eapply mp_bind; [apply mp_lift, sp_sty|]. intros y Hy. apply mp_lift, sp_font. exact (keeps_mut _ _ (iok_self _ _ Hi eq_refl) Hy).
  - apply iok_box in Hi as [Hst Hi]. apply mp_bind with (Q := any); [apply mp_lift, sp_page|]. intros pg _. apply mp_tbox; assumption.
  - apply iok_text in Hi as [Hst Hi]. apply mp_text; assumption.
  - apply mp_bind with (Q := any); [apply mp_lift, sp_page|]. intros pg _. apply mp_lift, sp_image.
  - apply mp_table. exact Hi.
  - destruct (render_grid _ _); try (intros s Hs; exact Logic.I); mp.
Qed.
Lemma mp_instructions : forall iss, Forall iok iss -> mp (processInstructions env callback iss) any.
Proof.
  induction iss as [|i iss IH]; intros H; cbn [processInstructions]; [mp|]. apply Forall_cons_iff in H as [Hi H]. apply mp_bind with (Q := any); [apply mp_instruction; exact Hi|]. intros _ _. exact (IH H).
Qed.
Lemma mp_prevent : forall b, mp (lift (modify (set_prevent b))) any.
Proof. intros b. apply mp_lift. intros s Hs. split; [exact Hs|exact Logic.I]. Qed.
Lemma mp_callback : Forall iok (e_header env) -> Forall iok (e_footer env) -> forall c, mp (run_callback env callback c) any.
Proof.
  intros Hh Hf c. unfold run_callback. apply mp_bind with (Q := any); [mp|]. intros xy _. apply mp_bind with (Q := any); [apply mp_prevent|]. intros _ _.
  apply mp_bind with (Q := any); [apply mp_instructions; destruct c; assumption|]. intros _ _. do 2 (apply mp_bind with (Q := any); [mp|intros ? _]). apply mp_prevent.
Qed.
Lemma mp_body : Forall iok (e_body env) -> mp (process_body env callback) any.
Proof.
  intros Hb. unfold process_body. do 3 (apply mp_bind with (Q := any); [mp|intros ? _]). eapply mp_bind; [apply mp_lift, sp_sty|]. intros y Hy.
  apply mp_bind with (Q := any); [mp|]. intros _ _. apply mp_bind with (Q := any); [apply mp_page|]. intros _ _. apply mp_bind with (Q := any); [apply mp_instructions; exact Hb|]. intros _ _.
  apply mp_bind with (Q := any); [mp|]. intros [e|] _; [mp|]. apply mp_bind with (Q := any); [apply mp_pdf|]. intros _ _. mp.
Qed.
End Walk.

Section Doc.
Context {F : Num} (env : Env F) (eng : Engine F) (P : Font F -> Prop).
Hypothesis Hdefault : P (SFont DefaultStyle).
Hypothesis Hdoc : document_within env P.
Lemma doc_iok : forall i, In i (e_header env ++ e_footer env ++ e_body env) -> iok env P i.
Proof. intros i Hi j st Hj E. apply (Hdoc j st); [exists i; auto|exact E]. Qed.
Lemma callbacks_ok : forall depth c, mp (eng:=eng) P (callbacks env depth c) (fun _ => True).
Proof.
  induction depth as [|d IH]; intros c; [intros s Hs; exact Logic.I|]. cbn [callbacks].
  apply mp_callback; [exact IH| |]; apply Forall_forall; intros i Hi; apply doc_iok; repeat (apply in_or_app; auto; right); auto.
Qed.
Lemma process_asks : forall depth e r (s : PS F eng), process env depth e = Ok r s -> forall f, asked (ps_trace s) f -> P f.
Proof.
  intros depth e r s H. assert (Hb : Forall (iok env P) (e_body env)) by (apply Forall_forall; intros i Hi; apply doc_iok; apply in_or_app; right; apply in_or_app; auto).
  assert (G := mp_body env (eng:=eng) P (callbacks env depth) (callbacks_ok depth) Hb (initial e) (conj Hdefault (tok_nil P))).
  unfold process in H. rewrite H in G. exact (proj2 (proj1 G)).
Qed.
End Doc.

(** ** Families *)
Section Families.
Context {F : Num} (L : bytes -> Prop).
Definition among (y : Styles F) : Prop := L (Family (SFont y)).
Definition within (m : mutator F) : Prop := forall f, sets_family m f -> L f.
Lemma set_later : forall i path (x v : gval F) r w, set_path (S i :: path) x (VStruct (v :: r)) = Some w -> exists r', w = VStruct (v :: r').
Proof. intros i path x v r w H. cbn [set_path set_nth] in H. destruct (set_nth r i _) as [r'|]; [|discriminate H]. injection H as <-. eauto. Qed.
Lemma set_first : forall path (x v : gval F) r w, set_path (0 :: path) x (VStruct (v :: r)) = Some w -> exists v', set_path path x v = Some v' /\ w = VStruct (v' :: r).
Proof. intros path x v r w H. cbn [set_path set_nth] in H. destruct (set_path path x v) as [v'|]; [|discriminate H]. injection H as <-. eauto. Qed.
Lemma family_val : forall v y, val_styles v = Some y -> exists f r r', v = VStruct (VStruct (VStr f :: r) :: r') /\ Family (SFont (F:=F) y) = f.
Proof.
  intros v y H. unfold val_styles in H.
  repeat match type of H with
  | Some _ = Some _ => injection H as <-
  | None = Some _ => discriminate H
  | match ?x with _ => _ end = Some _ => destruct x
  end. repeat eexists.
Qed.
Lemma mutate_among : forall m s s', within m -> mutate m s = Some s' -> among s -> among s'.
Proof.
  induction m as [|[p x] m IH]; intros s s' Hn H Hs; cbn [mutate] in H; [injection H as <-; exact Hs|].
  assert (Hm : within m) by (intros f (p' & x' & Hi & Hf); apply Hn; exists p', x'; split; [right; exact Hi|exact Hf]).
  assert (Hp : forall f, (p = [0; 0] /\ x = VStr f) \/ (p = [0] /\ exists r, x = VStruct (VStr f :: r)) \/ (p = [] /\ exists r r', x = VStruct (VStruct (VStr f :: r) :: r')) -> L f)
    by (intros f Hf; apply Hn; exists p, x; split; [left; reflexivity|exact Hf]).
  destruct (set_path p x (styles_val s)) as [v|] eqn:E; [|discriminate H]. destruct (val_styles v) as [y|] eqn:Ey; [|discriminate H].
  apply (IH y s' Hm H). clear H IH Hn Hm m s'. unfold among in *. apply family_val in Ey as (f & r & r' & -> & ->). unfold styles_val in E. destruct p as [|[|i] p].
  - injection E as ->. apply Hp. right. right. eauto.
  - apply set_first in E as (v' & E & Ev). injection Ev as <- _. destruct p as [|[|j] p].
    + injection E as ->. apply Hp. right. left. eauto.
    + apply set_first in E as (v2 & E & Ev). injection Ev as <- _. destruct p as [|k p]; [|discriminate E]. injection E as ->. apply Hp. left. auto.
    + apply set_later in E as (r2 & Ev). injection Ev as -> _. exact Hs.
  - apply set_later in E as (r2 & Ev). injection Ev as -> _ _. exact Hs.
Qed.
Lemma all_among : forall ms s s', Forall within ms -> mutate_all _ ms s = Some s' -> among s -> among s'.
Proof.
  induction ms as [|m ms IH]; intros s s' Hn H Hs; cbn [mutate_all] in H; [injection H as <-; exact Hs|]. apply Forall_cons_iff in Hn as [Hm Hn].
  destruct (mutate m s) as [y|] eqn:E; [|discriminate H]. exact (IH y s' Hn H (mutate_among m s y Hm E Hs)).
Qed.
Lemma map_get_in : forall A k (m : list (bytes * A)) v, map_get k m = Some v -> exists k', In (k', v) m.
Proof. intros A k. induction m as [|[k' v'] m IH]; intros v H; cbn [map_get] in H; [discriminate H|]. destruct (beqb k' k); [injection H as <-; exists k'; left; reflexivity|]. destruct (IH v H) as [k2 Hk]. exists k2. right. exact Hk. Qed.
Variable cs : Classes F.
Hypothesis Hcs : forall n c, In (n, c) cs -> within (cl_mutator c) /\ forall sel m, In (sel, m) (cl_selectors c) -> within m.
Lemma classes_among : forall use s s', classes_mutate _ cs use s = Some s' -> among s -> among s'.
Proof.
  induction use as [|cn use IH]; intros s s' H Hs; cbn [classes_mutate] in H; [injection H as <-; exact Hs|]. destruct (map_get cn cs) as [c|] eqn:Ec; [|exact (IH s s' H Hs)].
  apply map_get_in in Ec as [n Hn]. destruct (class_mutate F c s) as [y|] eqn:E; [|discriminate H]. apply (IH y s' H). exact (mutate_among _ _ _ (proj1 (Hcs n c Hn)) E Hs).
Qed.
Lemma classes_sel_among : forall sel use s s', classes_mutate_sel _ sel cs use s = Some s' -> among s -> among s'.
Proof.
  intros sel. induction use as [|cn use IH]; intros s s' H Hs; cbn [classes_mutate_sel] in H; [injection H as <-; exact Hs|]. destruct (map_get cn cs) as [c|] eqn:Ec; [|exact (IH s s' H Hs)].
  apply map_get_in in Ec as [n Hn]. destruct (class_mutate_sel F sel c s) as [y|] eqn:E; [|discriminate H]. apply (IH y s' H). unfold class_mutate_sel in E.
  destruct (map_get sel (cl_selectors c)) as [m|] eqn:Em; [|exact (mutate_among _ _ _ (proj1 (Hcs n c Hn)) E Hs)].
  apply map_get_in in Em as [k Hk]. exact (mutate_among _ _ _ (proj2 (Hcs n c Hn) k m Hk) E Hs).
Qed.
End Families.

Lemma families_within : forall (F : Num) (env : Env F) cs, styled_by env cs ->
  document_within env (fun f => Family f = $"Arial" \/ named env cs (Family f)).
Proof.
  intros F env cs [E1 E2] j st Hj Est y Hy. set (L := fun f => f = $"Arial" \/ named env cs f) in *. change (L (Family (SFont y))) in Hy.
  assert (D1 : forall n c, In (n, c) cs -> within L (cl_mutator c) /\ forall sel m, In (sel, m) (cl_selectors c) -> within L m).
  { intros n c Hn. split; [intros f Hf; right; left; exists n, c, (cl_mutator c); auto|]. intros sel m Hm f Hf. right. left. exists n, c, m. split; [exact Hn|]. split; [right; exists sel; exact Hm|exact Hf]. }
  assert (D2 : Forall (within L) (st_mutators st)).
  { apply Forall_forall. intros m Hm f Hf. right. right. exists j, st, m. auto. }
  split; [|intros sel].
  - rewrite E1. destruct (mutated_styles cs st y) as [y'|] eqn:E; [|exact Hy]. unfold mutated_styles in E. destruct (classes_mutate _ cs _ y) as [y1|] eqn:Ec; [|discriminate E].
    exact (all_among L _ _ _ D2 E (classes_among L cs D1 _ _ _ Ec Hy)).
  - rewrite E2. destruct (mutated_styles_sel sel cs st y) as [y'|] eqn:E; [|exact Hy]. unfold mutated_styles_sel in E. destruct (classes_mutate_sel _ sel cs _ y) as [y1|] eqn:Ec; [|discriminate E].
    exact (all_among L _ _ _ D2 E (classes_sel_among L cs D1 sel _ _ _ Ec Hy)).
Qed.
Lemma families_asked : forall (F : Num) (env : Env F) (eng : Engine F) cs, styled_by env cs ->
  forall depth e r (s : PS F eng), process env depth e = Ok r s -> forall f, asked (ps_trace s) f -> Family f = $"Arial" \/ named env cs (Family f).
Proof.
  intros F env eng cs Hs depth e r s H f Hf. exact (process_asks env eng _ (or_introl eq_refl) (families_within F env cs Hs) depth e r s H f Hf).
Qed.
Lemma fonts_registered : forall (F : Num) (env : Env F) (eng : Engine F) cs reg, styled_by env cs ->
  (forall n, n = $"Arial" \/ named env cs n -> forall sty, In sty [$"regular"; $"bold"; $"italic"; $"bold+italic"] -> exists fd, In fd (Font.r_fonts reg) /\ Font.fd_name fd = n /\ Font.fd_style fd = sty) ->
  forall depth e r (s : PS F eng), process env depth e = Ok r s -> forall f, asked (ps_trace s) f ->
  exists fd, In fd (Font.r_fonts reg) /\ Font.fd_name fd = Family f /\
    Permutation (Font.fpdf_font_style (FStyle f) (Weight f) (Decoration f)) (Font.font_file_style (Font.fd_style fd) ++ if beqb (Decoration f) ($"underline") then $"U" else []).
Proof.
  intros F env eng cs reg Hs Hr depth e r s H f Hf. assert (G := families_asked F env eng cs Hs depth e r s H f Hf).
  destruct (FontThms.always_asks (FStyle f) (Weight f)) as [sty Ha].
  destruct (Hr (Family f) G sty) as (fd & F1 & F2 & F3); [inversion Ha; subst; cbn; auto|]. exists fd. split; [exact F1|]. split; [exact F2|].
  rewrite F3, FontThms.file_letters. exact (FontThms.asked _ _ (Decoration f) _ Ha).
Qed.
Lemma same_font : forall (F : Num) (env : Env F) (eng : Engine F),
  (forall j st, in_document env j -> styles_of j = Some st -> forall y, SFont (e_mut env st y) = SFont y /\ forall sel, SFont (e_mut_sel env sel st y) = SFont y) ->
  forall depth e r (s : PS F eng), process env depth e = Ok r s -> forall f, asked (ps_trace s) f -> f = SFont DefaultStyle.
Proof.
  intros F env eng H depth e r s Hp f Hf. apply (process_asks env eng (fun f => f = SFont DefaultStyle) eq_refl) with (depth := depth) (e := e) (r := r) (s := s); [|exact Hp|exact Hf].
  intros j st Hj E y Hy. destruct (H j st Hj E y) as [A B]. split; [rewrite A; exact Hy|]. intros sel. rewrite B. exact Hy.
Qed.
