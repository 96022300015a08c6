(** The document that is loaded is the one specified. *)
From Coq Require Import ZArith Lia.
From Verif Require Import GoStr GoStrFacts Num Style Class Instr Xml Load LoadSpec LoadDocSpec LoadFacts LoadInv LoadSim LoadTree LoadReads LoadDoc LoadRun.
Local Open Scope nat_scope.

Lemma last_app : forall {A} (l m : list A) d, last (l ++ m) d = last m (last l d).
Proof.
  intros A l m d. destruct m as [|x m]; [rewrite app_nil_r; reflexivity|].
  assert (H : forall (m : list A) x d d', last (x :: m) d = last (x :: m) d') by (induction m0 as [|y m0 IH]; intros x0 d0 d1; [reflexivity|apply (IH y)]).
  rewrite (H m x (last l d) d). clear H. induction l as [|y l IH]; [reflexivity|]. cbn [app]. rewrite <- IH. destruct l; reflexivity.
Qed.
Lemma parsed_app : forall {T} (parse : bytes -> option T) l m x,
  parsed parse (l ++ m) x = match parsed parse l x with Some y => parsed parse m y | None => None end.
Proof. intros T parse l m. induction l as [|v l IH]; intro x; [reflexivity|]. cbn. destruct (parse v); [apply IH|reflexivity]. Qed.
Lemma under_elem : forall n p m a ks kids, under n (Elem p m a ks :: kids) = (if beqb m n then ks else []) ++ under n kids. Proof. reflexivity. Qed.
Lemma under_app : forall n l m, under n (l ++ m) = under n l ++ under n m. Proof. intros. apply flat_map_app. Qed.
Lemma fv_elem : forall n p m a ks kids, field_values n (Elem p m a ks :: kids) = (if beqb m n then [chars_of ks] else []) ++ field_values n kids. Proof. reflexivity. Qed.
Lemma fv_app : forall n l m, field_values n (l ++ m) = field_values n l ++ field_values n m. Proof. intros. apply flat_map_app. Qed.

Section Is.
Context {F : Num}.
Variables parse_float convert_float : bytes -> option F.
Variable order : nat -> bool -> nat -> rawmap -> rawmap.
Local Notation instr := (instr F).
Local Notation Document := (Document F).
Local Notation styled := (decode_styled F parse_float convert_float order).
Local Notation stricts := (stricts parse_float convert_float order).
Local Notation strict := (strict parse_float styled).
Local Notation number := (number parse_float).
Local Notation document_effect := (document_effect parse_float convert_float order).

Ltac lits := repeat match goal with |- context [beqb ($ ?x) ($ ?y)] => let b := eval vm_compute in (beqb ($ x) ($ y)) in change (beqb ($ x) ($ y)) with b end; cbv iota.
Ltac named m B := apply beqb_eq in B; subst m.

Definition meta_from (kids : list node) (x : Meta) : Meta :=
  mkMeta (last (field_values ($"author") kids) (m_author x)) (last (field_values ($"creator") kids) (m_creator x)) (last (field_values ($"subject") kids) (m_subject x)).
Lemma meta_effects : forall kids x, effects meta_effect kids x = Some (meta_from kids x).
Proof.
  induction kids as [|k kids IH]; intros [a c s]; [reflexivity|]. cbn [effects].
  destruct k as [p m at_ ks|t|]; [|apply IH|apply IH]. unfold meta_from. rewrite !fv_elem, !last_app. cbn [meta_effect].
  destruct (beqb m ($"author")) eqn:B1; [named m B1; lits; apply IH|].
  destruct (beqb m ($"creator")) eqn:B2; [named m B2; lits; apply IH|].
  destruct (beqb m ($"subject")) eqn:B3; [named m B3; lits; apply IH|]. apply IH.
Qed.
Definition quad (l t r b : option F) : option (Quad F) :=
  match l, t, r, b with Some l, Some t, Some r, Some b => Some (mkQuad l t r b) | _, _, _, _ => None end.
Definition margins_from (kids : list node) (q : Quad F) : option (Quad F) :=
  quad (parsed number (field_values ($"left") kids) (QLeft q)) (parsed number (field_values ($"top") kids) (QTop q))
       (parsed number (field_values ($"right") kids) (QRight q)) (parsed number (field_values ($"bottom") kids) (QBottom q)).
Lemma quad_none : forall l t r b, l = None \/ t = None \/ r = None \/ b = None -> quad l t r b = None.
Proof. intros [l|] [t|] [r|] [b|] [H|[H|[H|H]]]; try discriminate; reflexivity. Qed.
Lemma margins_effects : forall kids q, effects (margins_effect parse_float) kids q = margins_from kids q.
Proof.
  induction kids as [|k kids IH]; intros [l t r b]; [reflexivity|]. cbn [effects].
  destruct k as [p m at_ ks|c|]; [|apply IH|apply IH]. unfold margins_from. rewrite !fv_elem, !parsed_app. cbn [margins_effect].
  destruct (beqb m ($"left")) eqn:B1; [named m B1; lits; cbn [parsed option_map]; destruct (number (chars_of ks)); cbn [option_map]; [apply IH|symmetry; apply quad_none; auto]|].
  destruct (beqb m ($"top")) eqn:B2; [named m B2; lits; cbn [parsed option_map]; destruct (number (chars_of ks)); cbn [option_map]; [apply IH|symmetry; apply quad_none; auto]|].
  destruct (beqb m ($"right")) eqn:B3; [named m B3; lits; cbn [parsed option_map]; destruct (number (chars_of ks)); cbn [option_map]; [apply IH|symmetry; apply quad_none; auto]|].
  destruct (beqb m ($"bottom")) eqn:B4; [named m B4; lits; cbn [parsed option_map]; destruct (number (chars_of ks)); cbn [option_map]; [apply IH|symmetry; apply quad_none; auto]|].
  apply IH.
Qed.
Lemma margins_from_app : forall l m q, margins_from (l ++ m) q = match margins_from l q with Some q' => margins_from m q' | None => None end.
Proof.
  intros l m [a b c d]. unfold margins_from. rewrite !fv_app, !parsed_app. cbn [QLeft QTop QRight QBottom].
  destruct (parsed number (field_values ($"left") l) a); [|reflexivity].
  destruct (parsed number (field_values ($"top") l) b); [|apply quad_none; auto].
  destruct (parsed number (field_values ($"right") l) c); [|apply quad_none; auto].
  destruct (parsed number (field_values ($"bottom") l) d); [|apply quad_none; auto]. reflexivity.
Qed.
Definition page_from (kids : list node) (x : Page F) : option (Page F) :=
  option_map (mkPage F (last (field_values ($"orientation") kids) (p_orientation F x)) (last (field_values ($"format") kids) (p_format F x)))
    (margins_from (under ($"margins") kids) (p_margins F x)).
Lemma page_effects : forall kids x, effects (page_effect parse_float) kids x = page_from kids x.
Proof.
  induction kids as [|k kids IH]; intros [o f q]; [destruct q; reflexivity|]. cbn [effects].
  destruct k as [p m at_ ks|t|]; [|apply IH|apply IH]. unfold page_from. rewrite !fv_elem, !last_app, under_elem, margins_from_app. cbn [page_effect].
  destruct (beqb m ($"orientation")) eqn:B1; [named m B1; lits; destruct q; apply IH|].
  destruct (beqb m ($"format")) eqn:B2; [named m B2; lits; destruct q; apply IH|].
  destruct (beqb m ($"margins")) eqn:B3; [named m B3; lits|destruct q; apply IH].
  rewrite margins_effects. destruct (margins_from ks (p_margins F (mkPage F o f q))) as [q'|]; [apply IH|reflexivity].
Qed.

Lemma stricts_app : forall l m, stricts (l ++ m) = join (stricts l) (stricts m).
Proof.
  induction l as [|t l IH]; intro m; cbn [app].
  - change (stricts []) with (Some (@nil instr)). destruct (stricts m); reflexivity.
  - rewrite !stricts_cons, IH. unfold join. destruct (fst _), (stricts l), (stricts m); try reflexivity. rewrite app_assoc. reflexivity.
Qed.

(** [document_is], starting from a document. *)
Record document_from (x : Document) (kids : list node) (doc : Document) : Prop := {
  from_meta : doc_meta F doc = meta_from (under ($"meta") kids) (doc_meta F x);
  from_page : Some (doc_page F doc) = page_from (under ($"page") kids) (doc_page F x);
  from_style : doc_style F doc = last (field_values ($"style") kids) (doc_style F x);
  from_styled : forall p n a ks, In (Elem p n a ks) kids -> In n [$"header"; $"footer"; $"body"] -> styled p false a none <> None;
  from_header : exists l, stricts (under ($"header") kids) = Some l /\ doc_header F doc = doc_header F x ++ l;
  from_footer : exists l, stricts (under ($"footer") kids) = Some l /\ doc_footer F doc = doc_footer F x ++ l;
  from_body : exists l, stricts (under ($"body") kids) = Some l /\ doc_body F doc = doc_body F x ++ l }.
Lemma meta_from_app : forall l m x, meta_from (l ++ m) x = meta_from m (meta_from l x).
Proof. intros. unfold meta_from. rewrite !fv_app, !last_app. reflexivity. Qed.
Lemma page_from_app : forall l m x, page_from (l ++ m) x = match page_from l x with Some y => page_from m y | None => None end.
Proof.
  intros l m x. unfold page_from. rewrite !fv_app, !last_app, under_app, margins_from_app. destruct (margins_from (under ($"margins") l) (p_margins F x)); reflexivity.
Qed.
Lemma meta_from_nil : forall x, meta_from [] x = x. Proof. intros []; reflexivity. Qed.
Lemma page_from_nil : forall x, page_from [] x = Some x. Proof. intros [o f []]; reflexivity. Qed.

Lemma document_effects : forall kids x doc, effects document_effect kids x = Some doc <-> document_from x kids doc.
Proof.
  induction kids as [|k kids IH]; intros x doc; cbn [effects].
  - split.
    + intro E. injection E as <-. constructor; [symmetry; apply meta_from_nil|symmetry; apply page_from_nil|reflexivity|intros; contradiction| | |]; exists (@nil instr); rewrite app_nil_r; auto.
    + intros [H1 H2 H3 _ (h & E1 & H4) (f & E2 & H5) (b & E3 & H6)]. cbn [under flat_map field_values last] in *. rewrite meta_from_nil in H1. rewrite page_from_nil in H2.
      injection E1 as <-. injection E2 as <-. injection E3 as <-. rewrite app_nil_r in *. injection H2 as H2.
      destruct x, doc; cbn in *. congruence.
  - destruct k as [p m a ks|t|].
    2:{ destruct x as [M P S h f b]. cbn [LoadRun.document_effect]. rewrite IH. split; intros []; constructor; auto.
        - intros p n a ks [E|Hin]; [discriminate|]. eauto.
        - intros p n a ks Hin. eapply from_styled0. right. exact Hin. }
    2:{ destruct x as [M P S h f b]. cbn [LoadRun.document_effect]. rewrite IH. split; intros []; constructor; auto.
        - intros p n a ks [E|Hin]; [discriminate|]. eauto.
        - intros p n a ks Hin. eapply from_styled0. right. exact Hin. }
    assert (ST : forall x1, (In m [$"header"; $"footer"; $"body"] -> styled p false a none <> None) ->
       (document_from x (Elem p m a ks :: kids) doc <->
        doc_meta F doc = meta_from (under ($"meta") (Elem p m a ks :: kids)) (doc_meta F x) /\
        Some (doc_page F doc) = page_from (under ($"page") (Elem p m a ks :: kids)) (doc_page F x) /\
        doc_style F doc = last (field_values ($"style") (Elem p m a ks :: kids)) (doc_style F x) /\
        (forall p n a ks, In (Elem p n a ks) kids -> In n [$"header"; $"footer"; $"body"] -> styled p false a none <> None) /\
        (exists l, stricts (under ($"header") (Elem p m a ks :: kids)) = Some l /\ doc_header F doc = doc_header F x ++ l) /\
        (exists l, stricts (under ($"footer") (Elem p m a ks :: kids)) = Some l /\ doc_footer F doc = doc_footer F x ++ l) /\
        (exists l, stricts (under ($"body") (Elem p m a ks :: kids)) = Some l /\ doc_body F doc = doc_body F x ++ l)) /\
       (document_from x1 kids doc <->
        doc_meta F doc = meta_from (under ($"meta") kids) (doc_meta F x1) /\
        Some (doc_page F doc) = page_from (under ($"page") kids) (doc_page F x1) /\
        doc_style F doc = last (field_values ($"style") kids) (doc_style F x1) /\
        (forall p n a ks, In (Elem p n a ks) kids -> In n [$"header"; $"footer"; $"body"] -> styled p false a none <> None) /\
        (exists l, stricts (under ($"header") kids) = Some l /\ doc_header F doc = doc_header F x1 ++ l) /\
        (exists l, stricts (under ($"footer") kids) = Some l /\ doc_footer F doc = doc_footer F x1 ++ l) /\
        (exists l, stricts (under ($"body") kids) = Some l /\ doc_body F doc = doc_body F x1 ++ l))).
    { intros x1 Hm. split.
      - split; [intros []; repeat split; auto; intros p' n' a' ks' Hin; eapply from_styled0; right; exact Hin|].
        intros (H1 & H2 & H3 & H4 & H5 & H6 & H7). constructor; auto. intros p' n' a' ks' [E|Hin]; [injection E as <- <- <- <-; exact Hm|eapply H4; exact Hin].
      - split; [intros []; repeat split; auto|]. intros (H1 & H2 & H3 & H4 & H5 & H6 & H7). constructor; auto. }
    assert (SEC : forall ks' l0 r (get : list instr), stricts ks' = Some l0 ->
       ((exists l, stricts (ks' ++ r) = Some l /\ get = l) <-> (exists l, stricts r = Some l /\ get = l0 ++ l))).
    { intros ks' l0 r get E. rewrite stricts_app, E. destruct (stricts r) as [l|]; cbn [join]; split; intros (l' & E' & ->); try discriminate; injection E' as <-; eauto. }
    assert (SEC' : forall ks' l0 r (get pre : list instr), stricts ks' = Some l0 ->
       ((exists l, stricts (ks' ++ r) = Some l /\ get = pre ++ l) <-> (exists l, stricts r = Some l /\ get = (pre ++ l0) ++ l))).
    { intros ks' l0 r get pre E. rewrite stricts_app, E. destruct (stricts r) as [l|]; cbn [join]; split; intros (l' & E' & ->); try discriminate; injection E' as <-; eexists; split; try reflexivity; rewrite app_assoc; reflexivity. }
    assert (NS : forall l, (l = [$"meta"; $"page"; $"style"] -> forall s, In s l -> In s [$"header"; $"footer"; $"body"] -> False)).
    { intros l -> s H1 H2. cbn in H1, H2. destruct H1 as [<-|[<-|[<-|[]]]]; destruct H2 as [H2|[H2|[H2|[]]]]; discriminate. }
    destruct x as [M P S h f b]. cbn [LoadRun.document_effect].
    destruct (beqb m ($"meta")) eqn:B1.
    { named m B1. rewrite meta_effects. cbn [option_map]. rewrite IH. destruct (ST (mkDoc F (meta_from ks M) P S h f b)) as [-> ->].
      { intro H. exfalso. eapply NS; [reflexivity| |exact H]. cbn; auto. }
      rewrite !under_elem, fv_elem. lits. cbn [app doc_meta]. rewrite meta_from_app. reflexivity. }
    destruct (beqb m ($"page")) eqn:B2.
    { named m B2. rewrite page_effects. destruct (page_from ks P) as [P'|] eqn:E; cbn [option_map].
      - rewrite IH. destruct (ST (mkDoc F M P' S h f b)) as [-> ->].
        { intro H. exfalso. eapply NS; [reflexivity| |exact H]. cbn; auto. }
        rewrite !under_elem, fv_elem. lits. cbn [app doc_page]. rewrite page_from_app, E. reflexivity.
      - split; [discriminate|]. intros [_ H _ _ _ _ _]. rewrite under_elem in H. revert H. lits. rewrite page_from_app. cbn [doc_page]. rewrite E. discriminate. }
    destruct (beqb m ($"style")) eqn:B3.
    { named m B3. rewrite IH. destruct (ST (mkDoc F M P (chars_of ks) h f b)) as [-> ->].
      { intro H. exfalso. eapply NS; [reflexivity| |exact H]. cbn; auto. }
      rewrite !under_elem, fv_elem. lits. cbn [app doc_style]. change (chars_of ks :: field_values ($"style") kids) with ([chars_of ks] ++ field_values ($"style") kids). rewrite last_app. reflexivity. }
    unfold section_effect. change (no_styles F) with (@none F).
    destruct (beqb m ($"header")) eqn:B4.
    { named m B4. destruct (styled p false a none) as [st|] eqn:E0; cbn [option_map].
      2:{ split; [discriminate|]. intros [_ _ _ H _ _ _]. exfalso. eapply H; [left; reflexivity|cbn; auto|exact E0]. }
      destruct (stricts ks) as [l|] eqn:E; cbn [option_map].
      - rewrite IH. destruct (ST (mkDoc F M P S (h ++ l) f b)) as [-> ->]; [congruence|].
        rewrite !under_elem, fv_elem. lits. cbn [app doc_header]. rewrite (SEC' ks l _ _ _ E). reflexivity.
      - split; [discriminate|]. intros [_ _ _ _ H _ _]. rewrite under_elem in H. revert H. lits. rewrite stricts_app, E. intros (l & H & _). discriminate. }
    destruct (beqb m ($"footer")) eqn:B5.
    { named m B5. destruct (styled p false a none) as [st|] eqn:E0; cbn [option_map].
      2:{ split; [discriminate|]. intros [_ _ _ H _ _ _]. exfalso. eapply H; [left; reflexivity|cbn; auto|exact E0]. }
      destruct (stricts ks) as [l|] eqn:E; cbn [option_map].
      - rewrite IH. destruct (ST (mkDoc F M P S h (f ++ l) b)) as [-> ->]; [congruence|].
        rewrite !under_elem, fv_elem. lits. cbn [app doc_footer]. rewrite (SEC' ks l _ _ _ E). reflexivity.
      - split; [discriminate|]. intros [_ _ _ _ _ H _]. rewrite under_elem in H. revert H. lits. rewrite stricts_app, E. intros (l & H & _). discriminate. }
    destruct (beqb m ($"body")) eqn:B6.
    { named m B6. destruct (styled p false a none) as [st|] eqn:E0; cbn [option_map].
      2:{ split; [discriminate|]. intros [_ _ _ H _ _ _]. exfalso. eapply H; [left; reflexivity|cbn; auto|exact E0]. }
      destruct (stricts ks) as [l|] eqn:E; cbn [option_map].
      - rewrite IH. destruct (ST (mkDoc F M P S h f (b ++ l))) as [-> ->]; [congruence|].
        rewrite !under_elem, fv_elem. lits. cbn [app doc_body]. rewrite (SEC' ks l _ _ _ E). reflexivity.
      - split; [discriminate|]. intros [_ _ _ _ _ _ H]. rewrite under_elem in H. revert H. lits. rewrite stricts_app, E. intros (l & H & _). discriminate. }
    rewrite IH. destruct (ST (mkDoc F M P S h f b)) as [-> ->].
    { intros [H|[H|[H|[]]]]; subst m; exfalso; [clear - B4; vm_compute in B4|clear - B5; vm_compute in B5|clear - B6; vm_compute in B6]; discriminate. }
    rewrite !under_elem, fv_elem, B1, B2, B3, B4, B5, B6. reflexivity.
Qed.

Theorem document_is_iff : forall kids doc, effects document_effect kids (empty_document F) = Some doc <-> document_is parse_float styled kids doc.
Proof.
  intros kids doc. rewrite document_effects. split.
  - intros [H1 H2 H3 H4 (h & E1 & H5) (f & E2 & H6) (b & E3 & H7)]. cbn in H1, H3, H5, H6, H7. rewrite <- strict_iff in E1, E2, E3.
    unfold page_from in H2. cbn in H2. unfold margins_from, quad in H2. cbn in H2.
    destruct (parsed number (field_values _ _) _) as [ml|] eqn:Q1 in H2; [|discriminate].
    destruct (parsed number (field_values _ _) _) as [mt|] eqn:Q2 in H2; [|discriminate].
    destruct (parsed number (field_values _ _) _) as [mr|] eqn:Q3 in H2; [|discriminate].
    destruct (parsed number (field_values _ _) _) as [mb|] eqn:Q4 in H2; [|discriminate].
    injection H2 as H2. constructor; rewrite ?H1, ?H2, ?H5, ?H6, ?H7; try reflexivity; auto.
  - intros [A1 A2 A3 P1 P2 P3 P4 P5 P6 S1 S2 E1 E2 E3]. rewrite strict_iff in E1, E2, E3. constructor; eauto.
    + destruct doc as [[] ? ? ? ? ?]. cbn in *. unfold meta_from. cbn. subst. reflexivity.
    + unfold page_from, margins_from. unfold number_field in *. cbn [p_margins empty_document doc_page QLeft QTop QRight QBottom].
      rewrite <- P3, <- P4, <- P5, <- P6. cbn. destruct doc as [? [? ? []] ? ? ? ?]. cbn in *. subst. reflexivity.
Qed.
End Is.
