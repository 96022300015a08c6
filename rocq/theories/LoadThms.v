(** Loading: the theorems. *)
From Coq Require Import ZArith Lia.
From Verif Require Import GoStr GoStrFacts Num Style Class ClassFacts Instr Xml Load LoadSpec LoadDocSpec LoadFacts LoadInv LoadSim LoadTree LoadReads LoadDoc LoadRun LoadIs LoadTokens.
Local Open Scope nat_scope.

Section Thms.
Context {F : Num}.
Variables parse_float convert_float : bytes -> option F.
Variable order : nat -> bool -> nat -> rawmap -> rawmap.
Variable sheet_order : nat -> rawmap -> rawmap.
Local Notation instr := (instr F).
Local Notation Document := (Document F).
Local Notation styled := (decode_styled F parse_float convert_float order).
Local Notation outcome_at := (outcome_at parse_float convert_float order).
Local Notation stricts := (stricts parse_float convert_float order).
Local Notation looses := (looses parse_float convert_float order).
Local Notation pieces := (pieces parse_float convert_float order).
Local Notation strict := (strict parse_float styled).
Local Notation document_effect := (document_effect parse_float convert_float order).
Local Notation document_is := (document_is parse_float styled).
Local Notation document_field := (document_field F parse_float convert_float order).
Local Notation load := (load F parse_float convert_float order sheet_order).
Local Notation decode_document := (decode_document F parse_float convert_float order).

(** ** Load returns *)
Lemma find_returns : forall f d, List.length (d_toks d) < f -> returns (find_start f d) /\ ends (find_start f d) (shorter d).
Proof.
  induction f as [|f IH]; intros d H; [lia|]. cbn [find_start].
  destruct (next d) as [[t|] d'] eqn:N.
  - pose proof (next_some _ _ _ N). destruct t; try (split; [discriminate|unfold ends, shorter; cbn; lia]).
    all: destruct (IH d' ltac:(lia)) as [H1 H2]; split; [exact H1|]; destruct (find_start f d'); unfold ends, shorter in *; cbn in *; lia.
  - split; [discriminate|]. pose proof (next_len d) as L. rewrite N in L. cbn in L. unfold ends, shorter. cbn. lia.
Qed.
Lemma struct_returns : forall A (field : nat -> bytes -> attrs -> A -> option (decoder -> res A)) N,
  (forall pos n a acc f, field pos n a acc = Some f -> forall d, List.length (d_toks d) <= N -> returns (f d)) ->
  (forall pos n a acc f, field pos n a acc = Some f -> keeps shorter f) ->
  forall acc d, List.length (d_toks d) <= N -> returns (struct field acc d).
Proof.
  intros A field N H1 H2 acc d Hd. unfold struct, enough. generalize (le_n (S (List.length (d_toks d)))). generalize (S (List.length (d_toks d))) at 2 3 as f.
  intro f. revert acc d Hd. induction f as [|f IH]; intros acc d Hd Hf; [lia|]. rewrite fields_S.
  destruct (next d) as [[t|] d'] eqn:E; [|discriminate]. pose proof (next_some _ _ _ E).
  destruct t as [pos n a|n|t|]; try (apply IH; lia); try discriminate.
  destruct (field pos n a acc) as [g|] eqn:G.
  - pose proof (H1 _ _ _ _ _ G d' ltac:(lia)) as R. pose proof (H2 _ _ _ _ _ G d') as S. destruct (g d') as [x d''|d''|]; [|discriminate|congruence].
    unfold ends, shorter in S; cbn in S. apply IH; lia.
  - pose proof (skip_returns d') as R. pose proof (skip_shorter d') as S. destruct (skip d') as [x d''|d''|]; [|discriminate|intro; apply R; reflexivity].
    unfold ends, shorter in S; cbn in S. apply IH; lia.
Qed.
Ltac fld := repeat match goal with |- (if beqb ?n ?k then _ else _) = Some _ -> _ => destruct (beqb n k) end; try discriminate; let E := fresh in intro E; injection E as <-.
Lemma decode_document_returns : forall toks, returns (decode_document toks).
Proof.
  intro toks. unfold Load.decode_document. set (D := enough _).
  destruct (find_returns D (mkDec toks []) ltac:(unfold D, enough; cbn; lia)) as [H1 H2].
  destruct (find_start D (mkDec toks [])) as [n d|d|]; [|discriminate|exfalso; apply H1; reflexivity].
  destruct (beqb n ($"document")); [|discriminate]. unfold ends, shorter in H2. cbn in H2.
  assert (Hstr : forall A (set : bytes -> A) d, returns (string_field set d)) by (intros; apply map_returns, string_returns).
  assert (Hfl : forall A (set : F -> A) d, returns (float_field F parse_float set d)).
  { intros A set e. unfold float_field. pose proof (string_returns e) as R. destruct (string_value e); [|discriminate|exfalso; apply R; reflexivity].
    destruct (float_value zero parse_float a); discriminate. }
  apply struct_returns with (N := D); [| |unfold D, enough; cbn; lia].
  2:{ apply document_keeps; eauto with keeps. intros. apply section_shorter. }
  intros pos m a [M P S h f b] g. unfold Load.document_field.
  destruct (beqb m ($"meta")).
  { intros E e He. injection E as <-. apply map_returns. apply struct_returns with (N := D); auto.
    - intros p k c q g. unfold meta_field. fld; intros; apply Hstr.
    - apply meta_keeps; eauto with keeps. }
  destruct (beqb m ($"page")).
  { intros E e He. injection E as <-. apply map_returns. apply struct_returns with (N := D); auto.
    - intros p k c q g. unfold page_field. fld; intros; try apply Hstr. apply map_returns. apply struct_returns with (N := D); auto.
      + intros p' k' c' q' g'. unfold margins_field. fld; intros; apply Hfl.
      + apply margins_keeps; eauto with keeps.
    - apply page_keeps; eauto with keeps. }
  destruct (beqb m ($"style")); [intros E e He; injection E as <-; apply Hstr|].
  fld; intros e He; apply map_returns, section_returns; exact He.
Qed.
Theorem load_returns : forall toks, load toks <> LFuel F /\ load toks <> LPanic F.
Proof.
  intro toks. unfold Load.load. pose proof (decode_document_returns toks) as R.
  destruct (decode_document toks) as [doc d|d|]; [|split; discriminate|exfalso; apply R; reflexivity].
  destruct (decode_classes_total F parse_float convert_float sheet_order (doc_style F doc)) as [H1 H2].
  destruct (decode_classes F parse_float convert_float sheet_order (doc_style F doc)); split; congruence.
Qed.

(** ** What is loaded *)
Theorem load_iff : forall toks doc cs, load toks = LOk F doc cs <->
  exists kids, tokens_of toks kids /\ document_is kids doc /\ decode_classes F parse_float convert_float sheet_order (doc_style F doc) = COk cs.
Proof.
  intros toks doc cs. unfold Load.load. split.
  - intro H. destruct (decode_document toks) as [x d|d|] eqn:D; try discriminate.
    destruct (decode_classes F parse_float convert_float sheet_order (doc_style F x)) eqn:C; try discriminate. injection H as -> ->.
    destruct (decode_tokens parse_float convert_float order toks doc d D) as [kids T]. exists kids. split; [exact T|]. split; [|exact C].
    apply document_is_iff. pose proof (decode_run parse_float convert_float order toks kids T) as R. rewrite D in R.
    destruct (effects document_effect kids (empty_document F)) as [y|]; destruct R as [d' R]; [injection R as -> _; reflexivity|discriminate].
  - intros (kids & T & D & C). apply document_is_iff in D. pose proof (decode_run parse_float convert_float order toks kids T) as R. rewrite D in R.
    destruct R as [d' ->]. rewrite C. reflexivity.
Qed.
Lemma load_err : forall toks, (forall doc cs, load toks <> LOk F doc cs) -> load toks = LErr F.
Proof. intros toks H. destruct (load_returns toks) as [H1 H2]. destruct (load toks); congruence. Qed.
Lemma flats_inj : forall m ks ks' n r r', sizes ks <= m -> flats ks ++ TEnd n :: r = flats ks' ++ TEnd n :: r' -> ks = ks'.
Proof.
  induction m as [|m IH]; intros ks ks' n r r' Hm E.
  - destruct ks as [|k ks]; [|rewrite sizes_cons in Hm; pose proof (size_pos k); lia]. destruct ks' as [|[] ks']; [reflexivity|discriminate..].
  - destruct ks as [|k ks], ks' as [|k' ks']; [reflexivity|destruct k'; discriminate|destruct k; discriminate|].
    rewrite sizes_cons in Hm. rewrite !flats_cons, <- !app_assoc in E.
    destruct k as [p x a js|t|], k' as [p' x' a' js'|t'|]; try discriminate.
    + rewrite size_elem in Hm. cbn [flat app] in E. rewrite <- !app_assoc in E. cbn [app] in E. injection E as -> -> -> E.
      pose proof (IH js js' x' _ _ ltac:(lia) E) as ->. apply app_inv_head in E. injection E as E. f_equal. eapply IH; [|exact E]. lia.
    + cbn in Hm. cbn [flat app] in E. injection E as -> E. f_equal. eapply IH; [|exact E]. lia.
    + cbn in Hm. cbn [flat app] in E. injection E as E. f_equal. eapply IH; [|exact E]. lia.
Qed.
Lemma tokens_unique : forall toks kids kids', tokens_of toks kids -> tokens_of toks kids' -> kids = kids'.
Proof.
  intros toks kids kids' (pr & p & a & rest & Hp & ->) (pr' & p' & a' & rest' & Hp' & E). revert pr' Hp' E.
  induction pr as [|k pr IH]; intros [|k' pr'] Hp' E.
  - cbn [flats flat_map app flat] in E. rewrite <- !app_assoc in E. cbn [app] in E. injection E as -> -> E. eapply flats_inj; [|exact E]. apply le_n.
  - exfalso. destruct k' as [q m b js|t|]; [eapply Hp'; left; reflexivity|discriminate|discriminate].
  - exfalso. destruct k as [q m b js|t|]; [eapply Hp; left; reflexivity|discriminate|discriminate].
  - rewrite !flats_cons, <- !app_assoc in E.
    destruct k as [q m b js|t|]; [exfalso; eapply Hp; left; reflexivity| |]; (destruct k' as [q' m' b' js'|t'|]; [exfalso; eapply Hp'; left; reflexivity| |]); try discriminate.
    + injection E as _ E. apply (IH ltac:(intros q m b js Hin; eapply Hp; right; exact Hin) pr'); [intros q m b js Hin; eapply Hp'; right; exact Hin|exact E].
    + injection E as E. apply (IH ltac:(intros q m b js Hin; eapply Hp; right; exact Hin) pr'); [intros q m b js Hin; eapply Hp'; right; exact Hin|exact E].
Qed.
Lemma no_document : forall toks kids, tokens_of toks kids -> (forall doc, ~ document_is kids doc) -> load toks = LErr F.
Proof.
  intros toks kids T H. apply load_err. intros doc cs L. apply load_iff in L as (kids' & T' & D & _).
  rewrite (tokens_unique _ _ _ T' T) in D. exact (H _ D).
Qed.

(** ** Tables *)
Ltac lits := repeat match goal with |- context [beqb ($ ?x) ($ ?y)] => let b := eval vm_compute in (beqb ($ x) ($ y)) in change (beqb ($ x) ($ y)) with b end; cbv iota.
Definition bounded (i : instr) : Prop := forall st n rows, has_table i (XTable st n rows) -> (0 <= n <= 10)%Z.
Lemma between_bounded : forall k a x n, (0 <= x <= 10)%Z -> attr_value between0_10 k a x = Some n -> (0 <= n <= 10)%Z.
Proof.
  intros k a. unfold attr_value. induction (values k a) as [|v l IH]; intros x n Hx H; cbn [parsed] in H; [congruence|].
  unfold between0_10 at 1 in H. destruct (parse_int v) as [m|]; [|discriminate]. destruct ((0 <=? m)%Z && (m <=? 10)%Z) eqn:E; [|discriminate].
  eapply IH; [|exact H]. lia.
Qed.
Lemma option_map_some : forall {A B} (f : A -> B) o y, option_map f o = Some y -> exists x, y = f x.
Proof. intros A B f [x|] y H; [injection H as <-; eauto|discriminate]. Qed.
Lemma bounded_all :
  (forall t o, reads parse_float styled t o -> forall i, o = Some i -> bounded i) /\
  (forall ts l, strict ts l -> Forall bounded l) /\ (forall ts l, loose parse_float styled ts l -> Forall bounded l).
Proof.
  assert (L : forall l i st n rows, Forall bounded l -> In i l -> has_table i (XTable st n rows) -> (0 <= n <= 10)%Z).
  { intros l i st n rows Hl Hi. rewrite Forall_forall in Hl. apply (Hl i Hi). }
  assert (TX : forall t, @Forall instr bounded (text t)).
  { intros [|c t]; constructor; [|constructor]. intros st n rows H. inversion H. }
  apply (reads_all F parse_float styled).
  - intros p a kids i H. apply option_map_some in H as [st ->]. intros st' n rows H. inversion H.
  - intros p a kids i H. apply option_map_some in H as [st ->]. intros st' n rows H. inversion H.
  - intros p a kids i H. apply option_map_some in H as [st ->]. intros st' n rows H. inversion H.
  - intros p a kids x _ i H. injection H as <-. intros st' n rows H. inversion H.
  - intros p a kids x _ i H. injection H as <-. intros st' n rows H. inversion H.
  - intros p a kids x _ i H. injection H as <-. intros st' n rows H. inversion H.
  - intros p a kids i H. injection H as <-. intros st' n rows H. inversion H.
  - intros p a kids i H. injection H as <-. intros st' n rows H. inversion H.
  - intros p a kids iss _ _ IH i H. apply option_map_some in H as [st ->]. intros st' n rows H. inversion H; subst. eapply L; eassumption.
  - intros p a kids iss _ _ IH i H. apply option_map_some in H as [st ->]. intros st' n rows H. inversion H; subst. eapply L; eassumption.
  - intros p a kids iss _ IH i H. destruct (attr_value between0_10 _ _ _) as [m|] eqn:E; [|discriminate]. apply option_map_some in H as [st ->].
    intros st' n rows H. inversion H as [t Ht Ht'|?|?|? ? ? r ? Hr Hrt|?|?|?|?]; subst; [eapply between_bounded; [|exact E]; lia|].
    unfold rows_of in Hr. apply in_flat_map in Hr as (i & Hi & Hr). destruct i; try contradiction. destruct Hr as [->|[]]. eapply L; [exact IH|exact Hi|exact Hrt].
  - intros p a kids iss _ IH i H. apply option_map_some in H as [st ->]. intros st' n rows H. inversion H as [?|?|?|?|? ? c ? Hc Hct|?|?|?]; subst.
    unfold cells_of in Hc. apply in_flat_map in Hc as (i & Hi & Hc). destruct i; try contradiction. destruct Hc as [->|[]]. eapply L; [exact IH|exact Hi|exact Hct].
  - intros p a kids iss _ IH i H. destruct (attr_value parse_int _ _ _); [|discriminate]. destruct (attr_value parse_int _ _ _); [|discriminate].
    apply option_map_some in H as [st ->]. intros st' n rows H. inversion H; subst. eapply L; eassumption.
  - intros p a kids iss _ IH _ i H. apply option_map_some in H as [st ->]. intros st' n rows H. inversion H as [?|?|?|?|?|?|? ? ? q ? Hq Hqt|?]; subst.
    unfold parts_of in Hq. apply in_flat_map in Hq as (i & Hi & Hq). destruct i; try contradiction. destruct Hq as [->|[]]. eapply L; [exact IH|exact Hi|exact Hqt].
  - discriminate.
  - intros p a kids _ i H. apply option_map_some in H as [st ->]. intros st' n rows H. inversion H.
  - intros p a kids iss _ IH i H. apply option_map_some in H as [st ->]. intros st' n rows H. inversion H as [?|?|?|?|?|?|?|? ? ? i ? Hi Hit]; subst.
    apply filter_In in Hi as [Hi _]. eapply L; eassumption.
  - constructor.
  - auto.
  - intros t ts l _ IH. apply Forall_app. auto.
  - intros t i ts l _ IH1 _ IH2. constructor; auto.
  - constructor.
  - auto.
  - intros t ts l _ IH. apply Forall_app. auto.
  - intros t i ts l _ IH1 _ IH2. constructor; auto.
  - auto.
  - intros p n a kids ts l1 l2 _ _ IH1 _ IH2. apply Forall_app. auto.
Qed.
Theorem load_bounded : forall toks doc cs, load toks = LOk F doc cs -> forall i st n rows,
  In i (doc_header F doc ++ doc_footer F doc ++ doc_body F doc) -> has_table i (XTable st n rows) -> (0 <= n <= 10)%Z.
Proof.
  intros toks doc cs H i st n rows Hi Ht. apply load_iff in H as (kids & _ & D & _). destruct D. destruct bounded_all as (_ & B & _).
  apply B in is_header, is_footer, is_body. rewrite !in_app_iff in Hi. rewrite Forall_forall in is_header, is_footer, is_body.
  destruct Hi as [Hi|[Hi|Hi]]; [eapply is_header|eapply is_footer|eapply is_body]; eassumption.
Qed.

Lemma stricts_in : forall ts l t, stricts ts = Some l -> In t ts -> fst (pieces t) <> None.
Proof.
  induction ts as [|k ts IH]; intros l t H Hin; [contradiction|]. rewrite stricts_cons in H. apply join_some in H as (l1 & l2 & E1 & E2 & _).
  destruct Hin as [->|Hin]; [congruence|]. eapply IH; eassumption.
Qed.
Lemma looses_in : forall ts l t, looses ts = Some l -> In t ts -> snd (pieces t) <> None.
Proof.
  induction ts as [|k ts IH]; intros l t H Hin; [contradiction|]. rewrite looses_cons in H. apply join_some in H as (l1 & l2 & E1 & E2 & _).
  destruct Hin as [->|Hin]; [congruence|]. eapply IH; eassumption.
Qed.
Lemma pieces_strict : forall t l, fst (pieces t) = Some l -> snd (pieces t) = Some l.
Proof.
  intros [p n a ks|t|] l; [|cbn; auto|cbn; auto]. rewrite pieces_elem. destruct (outcome_at p n a ks); cbn; congruence.
Qed.
Lemma stricts_looses : forall ts l, stricts ts = Some l -> looses ts = Some l.
Proof.
  induction ts as [|t ts IH]; intros l H; [exact H|]. rewrite stricts_cons in H. apply join_some in H as (l1 & l2 & E1 & E2 & ->).
  rewrite looses_cons, (pieces_strict _ _ E1), (IH _ E2). reflexivity.
Qed.
Lemma block_broken : forall p n a ks, In n blocks -> stricts ks = None -> pieces (Elem p n a ks) = (None, None).
Proof.
  intros p n a ks Hn H. rewrite pieces_elem. unfold LoadTree.outcome_at, outcome_of. rewrite H.
  cbn [blocks map In] in Hn. destruct Hn as [<-|[<-|[<-|[<-|[]]]]]; lits; try reflexivity; destruct (styled p false a (no_styles F)); reflexivity.
Qed.
Lemma in_known : forall n, existsb (beqb n) known = true -> In n known.
Proof. intros n H. apply existsb_exists in H as (x & Hx & B). apply beqb_eq in B. subst x. exact Hx. Qed.
Lemma loose_broken : forall p n a ks, ~ In n leaves -> looses ks = None -> pieces (Elem p n a ks) = (None, None).
Proof.
  intros p n a ks Hn H. assert (HS : stricts ks = None). { destruct (stricts ks) as [l|] eqn:E; [|reflexivity]. apply stricts_looses in E. congruence. }
  destruct (existsb (beqb n) known) eqn:K.
  - apply in_known in K. rewrite pieces_elem. unfold LoadTree.outcome_at, outcome_of. rewrite H, HS. unfold known in K. cbn [map In] in K.
    repeat match type of K with _ \/ _ => destruct K as [<-|K] end; [..|contradiction]; try (exfalso; apply Hn; unfold leaves; cbn; tauto);
      lits; try reflexivity; destruct (styled p false a (no_styles F)); reflexivity.
  - rewrite pieces_elem, (opens_outcome parse_float convert_float order), H; [reflexivity|]. left. intro Hin.
    assert (E : existsb (beqb n) known = true) by (apply existsb_exists; exists n; split; [exact Hin|apply beqb_refl]). congruence.
Qed.
Lemma unknown_pieces : forall p n a ks, ~ In n known -> fst (pieces (Elem p n a ks)) = None.
Proof. intros p n a ks H. rewrite pieces_elem, (opens_outcome parse_float convert_float order); [reflexivity|left; exact H]. Qed.
Lemma inside_broken : forall ts t, inside ts t -> snd (pieces t) = None -> looses ts = None.
Proof.
  intros ts t H E. induction H as [ts t Hin|ts p n a ks t Hin Hn _ IH].
  - destruct (looses ts) eqn:L; [|reflexivity]. exfalso. eapply looses_in; eassumption.
  - destruct (looses ts) eqn:L; [|reflexivity]. exfalso. eapply looses_in; [exact L|exact Hin|]. rewrite loose_broken; auto.
Qed.
Lemma section_strict : forall kids doc n, document_is kids doc -> In n sections -> exists l, stricts (under n kids) = Some l.
Proof.
  intros kids doc n [] Hn. cbn [sections map In] in Hn. destruct Hn as [<-|[<-|[<-|[]]]]; eexists; apply strict_iff; eassumption.
Qed.
Theorem unknown_fails : forall toks kids ts p n a ks, tokens_of toks kids -> strict_contents kids ts ->
  In (Elem p n a ks) ts -> ~ In n known -> load toks = LErr F.
Proof.
  intros toks kids ts p n a ks T C Hin Hn. eapply no_document; [exact T|]. intros doc D. destruct C as [s Hs|s q m b js Hs Hi Hm].
  - destruct (section_strict _ _ _ D Hs) as [l E]. eapply stricts_in; [exact E|exact Hin|]. apply unknown_pieces. exact Hn.
  - destruct (section_strict _ _ _ D Hs) as [l E]. apply stricts_looses in E. rewrite (inside_broken _ _ Hi) in E; [discriminate|].
    rewrite block_broken; [reflexivity|exact Hm|]. destruct (stricts js) eqn:S; [|reflexivity]. exfalso. eapply stricts_in; [exact S|exact Hin|]. apply unknown_pieces. exact Hn.
Qed.
Theorem table_fails : forall toks kids s p a ks, tokens_of toks kids -> In s sections -> only_blocks (under s kids) (Elem p ($"table") a ks) ->
  attr_value between0_10 ($"repeatheader") a 0%Z = None -> load toks = LErr F.
Proof.
  intros toks kids s p a ks T Hs O V. eapply no_document; [exact T|]. intros doc D. destruct (section_strict _ _ _ D Hs) as [l E].
  assert (N : fst (pieces (Elem p ($"table") a ks)) = None).
  { rewrite pieces_elem. unfold LoadTree.outcome_at, outcome_of. lits. rewrite repeat_header_spec, V. destruct (stricts ks); reflexivity. }
  remember (Elem p ($"table") a ks) as t eqn:Et. clear Et D T Hs. revert l E. induction O as [ts t Hin|ts q m b js t Hin Hm _ IH]; intros l E.
  - eapply stricts_in; eassumption.
  - destruct (stricts js) as [l'|] eqn:S; [eapply IH; [exact N|reflexivity]|]. eapply stricts_in; [exact E|exact Hin|]. rewrite block_broken; auto.
Qed.

(** ** Tags of unknown elements *)
Lemma looses_app : forall l m, looses (l ++ m) = join (looses l) (looses m).
Proof.
  induction l as [|t l IH]; intro m; cbn [app].
  - change (looses []) with (Some (@nil instr)). destruct (looses m); reflexivity.
  - rewrite !looses_cons, IH. unfold join. destruct (snd _), (looses l), (looses m); try reflexivity. rewrite app_assoc. reflexivity.
Qed.
Lemma untagged_pieces : forall ts ts', untagged ts ts' -> map pieces ts = map pieces ts'.
Proof.
  intros ts ts' H. induction H as [p c a q n b ks1 ks ks2 l r Hc Hn|p n a ks ks' l r Hn _ IH]; rewrite !map_app; cbn [map]; f_equal; f_equal.
  - assert (E : looses (ks1 ++ Elem q n b ks :: ks2) = looses (ks1 ++ ks ++ ks2)).
    { rewrite !looses_app, looses_cons, pieces_elem, (opens_outcome parse_float convert_float order) by (left; exact Hn). reflexivity. }
    rewrite !pieces_elem. unfold LoadTree.outcome_at, outcome_of. rewrite E. cbn [In] in Hc.
    destruct Hc as [<-|[<-|[<-|[]]]]; lits; reflexivity.
  - assert (ES : stricts ks = stricts ks'). { unfold LoadTree.stricts. rewrite <- !(map_map pieces fst), IH. reflexivity. }
    assert (EL : looses ks = looses ks'). { unfold LoadTree.looses. rewrite <- !(map_map pieces snd), IH. reflexivity. }
    rewrite !pieces_elem. unfold LoadTree.outcome_at. rewrite ES, EL. unfold outcome_of.
    assert (B : forall x, In x leaves -> beqb n x = false).
    { intros x Hx. destruct (beqb n x) eqn:E; [|reflexivity]. apply beqb_eq in E. subst x. contradiction. }
    rewrite (B ($"font")), (B ($"image")), (B ($"p")), (B ($"gr")) by (unfold leaves; cbn [map In]; tauto). reflexivity.
Qed.
Lemma untagged_ctx : forall ks ks' l r, untagged ks ks' -> untagged (l ++ ks ++ r) (l ++ ks' ++ r).
Proof.
  assert (A : forall (l l' r' r : list node) x, l ++ (l' ++ x :: r') ++ r = (l ++ l') ++ x :: (r' ++ r)) by (intros; rewrite <- !app_assoc; reflexivity).
  intros ks ks' l r H. destruct H; rewrite !A; [apply U_here|apply U_deep]; assumption.
Qed.
Lemma untagged_chars : forall ks ks', untagged ks ks' -> chars_of ks = chars_of ks'.
Proof. intros ks ks' []; unfold chars_of; rewrite !flat_map_app; reflexivity. Qed.
Lemma untagged_fields : forall ks ks' m, untagged ks ks' -> ~ In m [$"td"; $"grid"; $"part"] -> field_values m ks = field_values m ks'.
Proof.
  intros ks ks' m [p c a q n b ks1 js ks2 l r Hc Hn|p n a js js' l r Hn Hu] Hm; rewrite !fv_app, !fv_elem; f_equal; f_equal.
  - destruct (beqb c m) eqn:B; [|reflexivity]. apply beqb_eq in B. subst. contradiction.
  - destruct (beqb n m); [|reflexivity]. rewrite (untagged_chars _ _ Hu). reflexivity.
Qed.
Lemma untagged_under : forall ks ks' m, untagged ks ks' -> ~ In m [$"td"; $"grid"; $"part"] ->
  under m ks = under m ks' \/ untagged (under m ks) (under m ks').
Proof.
  intros ks ks' m [p c a q n b ks1 js ks2 l r Hc Hn|p n a js js' l r Hn Hu] Hm; rewrite !under_app, !under_elem.
  - left. destruct (beqb c m) eqn:B; [|reflexivity]. apply beqb_eq in B. subst. contradiction.
  - destruct (beqb n m); [|auto]. right. apply untagged_ctx. exact Hu.
Qed.
Ltac notin := let H := fresh in intro H; cbn [In] in H; destruct H as [H|[H|[H|[]]]]; discriminate H.
Theorem untagged_document : forall kids kids' doc, untagged kids kids' -> (document_is kids doc <-> document_is kids' doc).
Proof.
  intros kids kids' doc H.
  assert (ST : forall m, ~ In m [$"td"; $"grid"; $"part"] -> stricts (under m kids) = stricts (under m kids')).
  { intros m Hm. destruct (untagged_under _ _ m H Hm) as [->|U]; [reflexivity|]. unfold LoadTree.stricts. rewrite <- !(map_map pieces fst), (untagged_pieces _ _ U). reflexivity. }
  assert (FV : forall m m', ~ In m [$"td"; $"grid"; $"part"] -> ~ In m' [$"td"; $"grid"; $"part"] -> field_values m' (under m kids) = field_values m' (under m kids')).
  { intros m m' Hm Hm'. destruct (untagged_under _ _ m H Hm) as [->|U]; [reflexivity|]. apply untagged_fields; auto. }
  assert (FV2 : forall m0 m m', ~ In m0 [$"td"; $"grid"; $"part"] -> ~ In m [$"td"; $"grid"; $"part"] -> ~ In m' [$"td"; $"grid"; $"part"] -> field_values m' (under m (under m0 kids)) = field_values m' (under m (under m0 kids'))).
  { intros m0 m m' H0 Hm Hm'. destruct (untagged_under _ _ m0 H H0) as [->|U]; [reflexivity|].
    destruct (untagged_under _ _ m U Hm) as [->|U']; [reflexivity|]. apply untagged_fields; auto. }
  assert (SD : (forall p n a ks, In (Elem p n a ks) kids -> In n [$"header"; $"footer"; $"body"] -> styled p false a none <> None) <->
               (forall p n a ks, In (Elem p n a ks) kids' -> In n [$"header"; $"footer"; $"body"] -> styled p false a none <> None)).
  { destruct H as [p c a q n b ks1 js ks2 l r Hc Hn|p n a js js' l r Hn Hu]; split; intros G p' n' a' ks' Hin; apply in_app_or in Hin as [Hin|[E|Hin]];
      try (eapply G; apply in_or_app; first [left; exact Hin|right; right; exact Hin]); injection E as <- <- <- <-; eapply G; apply in_or_app; right; left; reflexivity. }
  assert (half : forall k k', (forall m, ~ In m [$"td"; $"grid"; $"part"] -> stricts (under m k) = stricts (under m k')) ->
    (forall m, ~ In m [$"td"; $"grid"; $"part"] -> field_values m k = field_values m k') ->
    (forall m m', ~ In m [$"td"; $"grid"; $"part"] -> ~ In m' [$"td"; $"grid"; $"part"] -> field_values m' (under m k) = field_values m' (under m k')) ->
    (forall m0 m m', ~ In m0 [$"td"; $"grid"; $"part"] -> ~ In m [$"td"; $"grid"; $"part"] -> ~ In m' [$"td"; $"grid"; $"part"] -> field_values m' (under m (under m0 k)) = field_values m' (under m (under m0 k'))) ->
    ((forall p n a ks, In (Elem p n a ks) k -> In n [$"header"; $"footer"; $"body"] -> styled p false a none <> None) ->
     (forall p n a ks, In (Elem p n a ks) k' -> In n [$"header"; $"footer"; $"body"] -> styled p false a none <> None)) ->
    document_is k doc -> document_is k' doc).
  { clear. intros k k' ST F1 FV FV2 SD []. constructor; unfold text_field, number_field in *;
      try (rewrite <- FV2 by notin; assumption); try (rewrite <- FV by notin; assumption); try (rewrite <- F1 by notin; assumption);
      try (apply SD; assumption); apply strict_iff; rewrite <- ST by notin; apply strict_iff; assumption. }
  split; apply half; intros; try solve [apply ST; assumption|apply FV; assumption|apply FV2; assumption|eapply (proj1 SD); eassumption|eapply (proj2 SD); eassumption|apply untagged_fields; assumption];
    symmetry; first [apply ST|apply FV2|apply FV|apply untagged_fields]; assumption.
Qed.
Theorem untagged_load : forall toks toks' kids kids', tokens_of toks kids -> tokens_of toks' kids' -> untagged kids kids' -> load toks = load toks'.
Proof.
  intros toks toks' kids kids' T T' U.
  assert (E : effects document_effect kids (empty_document F) = effects document_effect kids' (empty_document F)).
  { pose proof (fun doc => iff_trans (iff_trans (document_is_iff parse_float convert_float order kids doc) (untagged_document kids kids' doc U)) (iff_sym (document_is_iff parse_float convert_float order kids' doc))) as G.
    destruct (effects document_effect kids (empty_document F)) as [x|], (effects document_effect kids' (empty_document F)) as [y|]; try reflexivity.
    - symmetry. apply G. reflexivity.
    - symmetry. apply G. reflexivity.
    - apply G. reflexivity. }
  pose proof (decode_run parse_float convert_float order toks kids T) as R. pose proof (decode_run parse_float convert_float order toks' kids' T') as R'. rewrite <- E in R'.
  unfold Load.load. destruct (effects document_effect kids (empty_document F)); destruct R as [e1 ->], R' as [e2 ->]; reflexivity.
Qed.
End Thms.
