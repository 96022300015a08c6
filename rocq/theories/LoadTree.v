(** DecodeInstruction on the tokens of a tree. *)
From Coq Require Import ZArith Lia.
From Verif Require Import GoStr GoStrFacts Num Style Class Instr Xml Load LoadSpec LoadFacts LoadInv LoadSim.
Local Open Scope nat_scope.

Section Tree.
Context {F : Num}.
Variables parse_float convert_float : bytes -> option F.
Variable order : nat -> bool -> nat -> rawmap -> rawmap.
Local Notation instr := (instr F).
Local Notation decode_instruction := (decode_instruction F parse_float convert_float order).
Local Notation styled := (decode_styled F parse_float convert_float order).
Local Notation float_attr := (float_attr F parse_float).

(** What becomes of an element: an instruction; an error after its end tag; an error after its
    start tag; anything else. *)
Inductive outcome := Taken (i : instr) | Dropped | Opened | Broken.
Definition taken (o : option instr) : outcome := match o with Some i => Taken i | None => Dropped end.

(** The outcome for an element, given what its contents are in a strict and a loose context. *)
Definition outcome_of (pos : nat) (n : bytes) (a : attrs) (kids : list node) (S L : option (list instr)) : outcome :=
  let block f := match styled pos false a (no_styles F), S with
                 | Some _, Some iss => taken (option_map (fun st => f st iss) (styled pos true a (no_styles F)))
                 | _, _ => Broken end in
  let leaf f := taken (option_map f (styled pos true a (field_styles kids))) in
  let move k f := match float_attr k a zero with Some x => Taken (f x) | None => Opened end in
  if beqb n ($"font") then leaf IFont
  else if beqb n ($"box") then block IBox
  else if beqb n ($"text") then block IText
  else if beqb n ($"lf") then move ($"lines") ILineFeed
  else if beqb n ($"setx") then move ($"x") ISetX
  else if beqb n ($"sety") then move ($"y") ISetY
  else if beqb n ($"image") then leaf (fun st => IImage st (chars_of kids))
  else if beqb n ($"table") then
    match S with
    | Some iss => match repeat_header a 0 with
                  | Some m => taken (option_map (fun st => ITable (XTable st m (rows_of iss))) (styled pos true a (no_styles F)))
                  | None => Dropped end
    | None => Broken end
  else if beqb n ($"tr") then
    match S with
    | Some iss => taken (option_map (fun st => ITableRow (XRow st (cells_of iss))) (styled pos true a (no_styles F)))
    | None => Broken end
  else if beqb n ($"td") then
    match L with
    | Some iss => match decode_spans a 0 0 with
                  | Some (cs, rs) => taken (option_map (fun st => ITableCell (XCell st cs rs iss)) (styled pos true a (no_styles F)))
                  | None => Dropped end
    | None => Broken end
  else if beqb n ($"grid") then
    match L with
    | Some iss => if grid_valid F (gridrows_of iss) (parts_of iss)
                  then taken (option_map (fun st => IGrid st (gridrows_of iss) (parts_of iss)) (styled pos true a (no_styles F)))
                  else Dropped
    | None => Broken end
  else if beqb n ($"gr") then
    if existsb (has_elem ($"gr")) kids then Broken
    else taken (option_map (fun st => IGridRow (XGridRow st (fold_left (fun _ t => split_byte sp t) (flat_map deep_chars kids) []))) (styled pos true a (no_styles F)))
  else if beqb n ($"part") then
    match L with
    | Some iss => taken (option_map (fun st => IGridPart (XGridPart st (decode_area a []) (no_text iss))) (styled pos true a (no_styles F)))
    | None => Broken end
  else if beqb n ($"p") then leaf (fun st => IParagraph st (chars_of kids))
  else if beqb n ($"br") then Taken ILineBreak
  else if beqb n ($"newpage") then Taken IPageBreak
  else Opened.

Definition join (x y : option (list instr)) : option (list instr) :=
  match x, y with Some l, Some m => Some (l ++ m) | _, _ => None end.
Definition joins (l : list (option (list instr))) : option (list instr) := fold_right join (Some []) l.

(** What a node contributes in a strict and in a loose context. *)
Fixpoint pieces (t : node) : option (list instr) * option (list instr) :=
  match t with
  | Chars t => (Some (text t), Some (text t))
  | Other => (Some [], Some [])
  | Elem pos n a kids =>
      let S := joins (map (fun k => fst (pieces k)) kids) in
      let L := joins (map (fun k => snd (pieces k)) kids) in
      match outcome_of pos n a kids S L with
      | Taken i => (Some [i], Some [i])
      | Dropped => (None, Some [])
      | Opened => (None, L)
      | Broken => (None, None)
      end
  end.
Definition stricts (kids : list node) : option (list instr) := joins (map (fun k => fst (pieces k)) kids).
Definition looses (kids : list node) : option (list instr) := joins (map (fun k => snd (pieces k)) kids).
Definition outcome_at (pos : nat) (n : bytes) (a : attrs) (kids : list node) : outcome := outcome_of pos n a kids (stricts kids) (looses kids).
Lemma pieces_elem : forall pos n a kids, pieces (Elem pos n a kids) =
  match outcome_at pos n a kids with
  | Taken i => (Some [i], Some [i]) | Dropped => (None, Some []) | Opened => (None, looses kids) | Broken => (None, None) end.
Proof. reflexivity. Qed.
Lemma stricts_cons : forall t ts, stricts (t :: ts) = join (fst (pieces t)) (stricts ts). Proof. reflexivity. Qed.
Lemma looses_cons : forall t ts, looses (t :: ts) = join (snd (pieces t)) (looses ts). Proof. reflexivity. Qed.

Definition decoding := nat -> bytes -> attrs -> decoder -> res instr.
Definition sim_at (decode : decoding) (t : node) : Prop :=
  match t with
  | Elem pos n a kids => forall r s,
      let d := mkDec (flats kids ++ TEnd n :: r) (Some n :: s) in
      match outcome_at pos n a kids with
      | Taken i => decode pos n a d = Got i (mkDec r s)
      | Dropped => decode pos n a d = Fail (mkDec r s)
      | Opened => decode pos n a d = Fail d
      | Broken => ends (decode pos n a d) (fun d' => above (None :: s) (d_stk d'))
      end
  | _ => True
  end.

Lemma token_ext : forall {A} name (f g : nat -> bytes -> attrs -> A -> decoder -> res A) c c',
  (forall pos n a acc d, f pos n a acc d = g pos n a acc d) -> (forall t acc, c t acc = c' t acc) ->
  forall fuel acc d, token_loop name f c fuel acc d = token_loop name g c' fuel acc d.
Proof.
  intros A name f g c c' H Hc. induction fuel as [|k IH]; intros acc d; cbn [token_loop]; [reflexivity|].
  destruct (next d) as [[[pos n a|n|t|]|] d']; auto.
  - rewrite H. destruct (g pos n a acc d'); auto.
  - destruct (beqb n name); auto.
  - rewrite Hc. apply IH.
Qed.

Section TLoop.
Context {A : Type}.
Variable name : bytes.
Variable on_start : nat -> bytes -> attrs -> A -> decoder -> res A.
Variable on_char : bytes -> A -> A.
Hypothesis Hk : forall pos n a acc, keeps shorter (on_start pos n a acc).
Definition tloop (acc : A) (d : decoder) : res A := token_loop name on_start on_char (enough d) acc d.
Lemma token_S : forall f acc d, token_loop name on_start on_char (S f) acc d =
    match next d with
    | (None, d') => Fail d'
    | (Some (TEnd n), d') => if beqb n name then Got acc d' else token_loop name on_start on_char f acc d'
    | (Some (TStart pos n a), d') =>
        match on_start pos n a acc d' with Got acc' d'' => token_loop name on_start on_char f acc' d'' | r => r end
    | (Some (TChar t), d') => token_loop name on_start on_char f (on_char t acc) d'
    | (Some TOther, d') => token_loop name on_start on_char f acc d'
    end.
Proof. reflexivity. Qed.
Lemma tloop_char : forall t r s acc, top_ok s -> tloop acc (mkDec (TChar t :: r) s) = tloop (on_char t acc) (mkDec r s).
Proof. intros. unfold tloop, enough. cbn [d_toks List.length]. rewrite token_S, next_char_run by assumption. reflexivity. Qed.
Lemma tloop_other : forall r s acc, top_ok s -> tloop acc (mkDec (TOther :: r) s) = tloop acc (mkDec r s).
Proof. intros. unfold tloop, enough. cbn [d_toks List.length]. rewrite token_S, next_other_run by assumption. reflexivity. Qed.
Lemma tloop_end : forall r s acc, tloop acc (mkDec (TEnd name :: r) (Some name :: s)) = Got acc (mkDec r s).
Proof. intros. unfold tloop, enough. cbn [d_toks List.length]. rewrite token_S, next_end_run, beqb_refl. reflexivity. Qed.
Lemma tloop_end_other : forall n r s acc, beqb n name = false -> tloop acc (mkDec (TEnd n :: r) (Some n :: s)) = tloop acc (mkDec r s).
Proof. intros n r s acc H. unfold tloop, enough. cbn [d_toks List.length]. rewrite token_S, next_end_run, H. reflexivity. Qed.
Lemma tloop_start : forall pos n a r s acc, top_ok s ->
  tloop acc (mkDec (TStart pos n a :: r) s) = match on_start pos n a acc (mkDec r (Some n :: s)) with Got acc' d => tloop acc' d | x => x end.
Proof.
  intros. unfold tloop at 1, enough. cbn [d_toks List.length]. rewrite token_S, next_start_run by assumption.
  pose proof (Hk pos n a acc (mkDec r (Some n :: s))) as S. destruct (on_start _ _ _ _ _) as [x d|d|]; try reflexivity.
  unfold ends, shorter in S. cbn in S. unfold tloop. apply token_fuel; auto; unfold enough; lia.
Qed.
End TLoop.

Section Loops.
Context {A : Type}.
Variable add : A -> list instr -> A.
Hypothesis add_nil : forall acc, add acc [] = acc.
Hypothesis add_app : forall acc l m, add acc (l ++ m) = add (add acc l) m.
Variable decode : decoding.
Hypothesis Hshort : forall pos n a, keeps shorter (decode pos n a).
Hypothesis Hclose : forall pos n a, closes (decode pos n a).
Variable name : bytes.

Definition strict_start (pos : nat) (n : bytes) (a : attrs) (acc : A) (d : decoder) : res A :=
  match decode pos n a d with Got i d' => Got (add acc [i]) d' | Fail d' => Fail d' | Fuel => Fuel end.
Definition loose_start (pos : nat) (n : bytes) (a : attrs) (acc : A) (d : decoder) : res A :=
  match decode pos n a d with Got i d' => Got (add acc [i]) d' | Fail d' => Got acc d' | Fuel => Fuel end.
Lemma strict_eq : forall pos n a acc d, strict_start pos n a acc d = match decode pos n a d with Got i d' => Got (add acc [i]) d' | Fail d' => Fail d' | Fuel => Fuel end.
Proof. reflexivity. Qed.
Lemma loose_eq : forall pos n a acc d, loose_start pos n a acc d = match decode pos n a d with Got i d' => Got (add acc [i]) d' | Fail d' => Got acc d' | Fuel => Fuel end.
Proof. reflexivity. Qed.
Definition add_text (t : bytes) (acc : A) : A := add acc (text t).
Local Notation sloop := (tloop name strict_start add_text).
Local Notation lloop := (tloop name loose_start add_text).

Lemma strict_start_shorter : forall pos n a acc, keeps shorter (strict_start pos n a acc).
Proof. intros pos n a acc d. specialize (Hshort pos n a d). unfold strict_start. destruct (decode pos n a d); exact Hshort. Qed.
Lemma loose_start_shorter : forall pos n a acc, keeps shorter (loose_start pos n a acc).
Proof. intros pos n a acc d. specialize (Hshort pos n a d). unfold loose_start. destruct (decode pos n a d); exact Hshort. Qed.
Lemma decode_blocked : forall z pos n a d d', next d = (Some (TStart pos n a), d') -> ends (decode pos n a d') (blocked z d).
Proof.
  intros z pos n a d d' N. destruct (next_start _ _ _ _ _ N) as (_ & Hs & _). specialize (Hclose pos n a d' n (d_stk d) Hs).
  destruct (decode pos n a d'); unfold ends, blocked in *; cbn in *; auto; intro; eapply above_trans; eauto.
Qed.
Lemma sloop_blocked : forall z acc, keeps (blocked z) (sloop acc).
Proof.
  intros z acc d. apply token_keeps; eauto with keeps. intros pos n a acc' d1 d2 N. pose proof (decode_blocked z _ _ _ _ _ N) as H.
  unfold strict_start. destruct (decode pos n a d2); exact H.
Qed.
Lemma lloop_blocked : forall z acc, keeps (blocked z) (lloop acc).
Proof.
  intros z acc d. apply token_keeps; eauto with keeps. intros pos n a acc' d1 d2 N. pose proof (decode_blocked z _ _ _ _ _ N) as H.
  unfold loose_start. destruct (decode pos n a d2); exact H.
Qed.
Lemma ends_imp : forall {B} (r : res B) (P Q : decoder -> Prop), (forall d, P d -> Q d) -> ends r P -> ends r Q.
Proof. intros B [x d|d|] P Q H E; unfold ends in *; cbn in *; auto. Qed.

Lemma strict_run : forall kids, Forall (sim_at decode) kids -> forall acc r z,
  let d := mkDec (flats kids ++ TEnd name :: r) (Some name :: z) in
  match stricts kids with
  | Some iss => sloop acc d = Got (add acc iss) (mkDec r z)
  | None => ends (sloop acc d) (fun d' => exists x, above (x :: z) (d_stk d'))
  end.
Proof.
  induction kids as [|t kids IH]; intros Hs acc r z.
  - cbn -[tloop]. rewrite tloop_end, add_nil. reflexivity.
  - cbv zeta. inversion Hs as [|? ? Ht Hs']; subst. specialize (IH Hs'). rewrite stricts_cons, flats_cons, <- app_assoc.
    destruct t as [pos n a ks|t|].
    + cbn [flat app]. rewrite <- app_assoc. change (flat_map flat ks) with (flats ks). cbn [app].
      rewrite tloop_start by (exact I || apply strict_start_shorter).
      specialize (Ht (flats kids ++ TEnd name :: r) (Some name :: z)). cbv zeta in Ht. rewrite pieces_elem.
      rewrite strict_eq. destruct (outcome_at pos n a ks) as [i| | |]; cbn [fst join].
      * rewrite Ht. specialize (IH (add acc [i]) r z). cbv zeta in IH. destruct (stricts kids) as [l|].
        -- cbn [join app]. rewrite IH, <- add_app. reflexivity.
        -- exact IH.
      * rewrite Ht. cbn. exists (Some name). apply above_refl.
      * rewrite Ht. cbn. exists (Some name). apply above_cons, above_refl.
      * destruct (decode pos n a _) as [i d|d|].
        -- eapply ends_imp; [|exact (sloop_blocked (Some name :: z) (add acc [i]) d)]. cbn in Ht. unfold blocked. intros d' H. exists (Some name). eapply above_tail, H, Ht.
        -- cbn in *. exists (Some name). eapply above_tail, Ht.
        -- exact I.
    + cbn [flat app pieces fst]. rewrite tloop_char by exact I. specialize (IH (add_text t acc) r z). cbv zeta in IH.
      destruct (stricts kids) as [l|]; cbn [join]; [|exact IH]. rewrite IH, add_app. reflexivity.
    + cbn [flat app pieces fst]. rewrite tloop_other by exact I. specialize (IH acc r z). cbv zeta in IH.
      destruct (stricts kids) as [l|]; cbn [join]; exact IH.
Qed.

Hypothesis Hname : forall pos n a kids, outcome_at pos n a kids = Opened -> beqb n name = false.
Lemma loose_run : forall m, (forall t, size t <= m -> sim_at decode t) -> forall k kids, sizes kids <= k -> k <= m ->
  forall acc rest st, top_ok st ->
  let d := mkDec (flats kids ++ rest) st in
  match looses kids with
  | Some iss => lloop acc d = lloop (add acc iss) (mkDec rest st)
  | None => ends (lloop acc d) (fun d' => exists y, above st y /\ above (None :: y) (d_stk d'))
  end.
Proof.
  intros m Hm. induction k as [|k IH]; intros kids Hk Hkm acc rest st Ht.
  { destruct kids as [|t kids]; [|rewrite sizes_cons in Hk; pose proof (size_pos t); lia]. cbn -[tloop]. rewrite add_nil. reflexivity. }
  destruct kids as [|t kids]; [cbn -[tloop]; rewrite add_nil; reflexivity|].
  rewrite sizes_cons in Hk. pose proof (size_pos t) as Hpos. cbv zeta. rewrite looses_cons, flats_cons, <- app_assoc.
  assert (IHk := fun acc => IH kids ltac:(lia) ltac:(lia) acc rest st Ht). cbv zeta in IHk.
  destruct t as [pos n a ks|t|].
  - cbn [flat app]. rewrite <- app_assoc. change (flat_map flat ks) with (flats ks). cbn [app].
    rewrite tloop_start by (exact Ht || apply loose_start_shorter).
    pose proof (Hm (Elem pos n a ks) ltac:(lia)) as Hs. specialize (Hs (flats kids ++ rest) st). cbv zeta in Hs. rewrite pieces_elem.
    rewrite size_elem in Hk.
    rewrite loose_eq. destruct (outcome_at pos n a ks) as [i| | |] eqn:O; cbn [snd join].
    + rewrite Hs. specialize (IHk (add acc [i])). destruct (looses kids) as [l|]; [|exact IHk]. cbn [app]. rewrite IHk, <- add_app. reflexivity.
    + rewrite Hs. specialize (IHk acc). destruct (looses kids) as [l|]; exact IHk.
    + rewrite Hs. pose proof (IH ks ltac:(lia) ltac:(lia) acc (TEnd n :: flats kids ++ rest) (Some n :: st) I) as IHi. cbv zeta in IHi.
      destruct (looses ks) as [l1|]; cbn [join].
      * rewrite IHi, tloop_end_other by (eapply Hname; exact O). specialize (IHk (add acc l1)).
        destruct (looses kids) as [l2|]; [|exact IHk]. rewrite IHk, <- add_app. reflexivity.
      * assert (G : ends (lloop acc (mkDec (flats ks ++ TEnd n :: flats kids ++ rest) (Some n :: st))) (fun d' => exists y, above st y /\ above (None :: y) (d_stk d'))).
        { eapply ends_imp; [|exact IHi]. intros d' (y & H1 & H2). exists y. split; [eapply above_tail; exact H1|exact H2]. }
        exact G.
    + assert (G : forall acc d, above (None :: st) (d_stk d) -> ends (lloop acc d) (fun d' => exists y, above st y /\ above (None :: y) (d_stk d'))).
      { intros acc' d H. eapply ends_imp; [|exact (lloop_blocked st acc' d)]. unfold blocked. intros d' H'. exists st. split; [apply above_refl|auto]. }
      destruct (decode pos n a _) as [i d|d|]; [apply G; exact Hs|apply G; exact Hs|exact I].
  - cbn [flat app pieces snd]. rewrite tloop_char by exact Ht. specialize (IHk (add_text t acc)).
    destruct (looses kids) as [l|]; cbn [join]; [|exact IHk]. rewrite IHk, add_app. reflexivity.
  - cbn [flat app pieces snd]. rewrite tloop_other by exact Ht. specialize (IHk acc).
    destruct (looses kids) as [l|]; cbn [join]; exact IHk.
Qed.
Lemma loose_run_all : forall kids, (forall t, size t <= sizes kids -> sim_at decode t) -> forall acc r z,
  let d := mkDec (flats kids ++ TEnd name :: r) (Some name :: z) in
  match looses kids with
  | Some iss => lloop acc d = Got (add acc iss) (mkDec r z)
  | None => ends (lloop acc d) (fun d' => exists x, above (x :: z) (d_stk d'))
  end.
Proof.
  intros kids Hs acc r z. pose proof (loose_run (sizes kids) Hs (sizes kids) kids ltac:(lia) ltac:(lia) acc (TEnd name :: r) (Some name :: z) I) as H.
  cbv zeta in *. destruct (looses kids) as [iss|].
  - rewrite H, tloop_end. reflexivity.
  - eapply ends_imp; [|exact H]. intros d' (y & H1 & H2). exists (Some name). eapply above_trans; [exact H1|eapply above_tail; exact H2].
Qed.
End Loops.

(** ** gr *)
Definition areas_of (acc : list bytes) (l : list bytes) : list bytes := fold_left (fun _ t => split_byte sp t) l acc.
Local Notation gloop := (tloop ($"gr") (fun _ _ _ (acc : list bytes) d' => Got acc d') (fun t _ => split_byte sp t)).
Lemma gr_shorter : forall (pos : nat) (n : bytes) (a : attrs) (acc : list bytes), keeps shorter (fun d' => Got acc d').
Proof. intros pos n a acc d. unfold ends, shorter. cbn. lia. Qed.
Lemma gr_run1 : forall t, has_elem ($"gr") t = false -> forall acc rest st, top_ok st ->
  gloop acc (mkDec (flat t ++ rest) st) = gloop (areas_of acc (deep_chars t)) (mkDec rest st).
Proof.
  induction t as [pos n a kids IH|t|] using node_ind'; intros H acc rest st Ht.
  - cbn [has_elem] in H. apply orb_false_iff in H as [Hn H]. cbn [flat app deep_chars]. rewrite <- app_assoc. cbn [app].
    rewrite tloop_start by (exact Ht || apply gr_shorter).
    assert (G : forall ks acc r, Forall (fun t => has_elem ($"gr") t = false -> forall acc rest st, top_ok st ->
      gloop acc (mkDec (flat t ++ rest) st) = gloop (areas_of acc (deep_chars t)) (mkDec rest st)) ks -> existsb (has_elem ($"gr")) ks = false ->
      gloop acc (mkDec (flat_map flat ks ++ r) (Some n :: st)) = gloop (areas_of acc (flat_map deep_chars ks)) (mkDec r (Some n :: st))).
    { induction ks as [|k ks IHk]; intros acc' r Hks E; [reflexivity|]. inversion Hks as [|? ? H1 H2]; subst. cbn [existsb] in E. apply orb_false_iff in E as [E1 E2].
      cbn [flat_map]. rewrite <- app_assoc. rewrite (H1 E1) by exact I. rewrite IHk by assumption. unfold areas_of. rewrite fold_left_app. reflexivity. }
    rewrite G by assumption. rewrite tloop_end_other by exact Hn. reflexivity.
  - cbn [flat app]. rewrite tloop_char by exact Ht. reflexivity.
  - cbn [flat app]. rewrite tloop_other by exact Ht. reflexivity.
Qed.
Lemma gr_run : forall ks acc r st, top_ok st -> existsb (has_elem ($"gr")) ks = false ->
  gloop acc (mkDec (flats ks ++ r) st) = gloop (areas_of acc (flat_map deep_chars ks)) (mkDec r st).
Proof.
  induction ks as [|k ks IHk]; intros acc' r st Ht E; [reflexivity|]. cbn [existsb] in E. apply orb_false_iff in E as [E1 E2].
  rewrite flats_cons, <- app_assoc. rewrite (gr_run1 k E1) by exact Ht. rewrite IHk by assumption. unfold areas_of. cbn [flat_map]. rewrite fold_left_app. reflexivity.
Qed.
Lemma gr_bad1 : forall t, has_elem ($"gr") t = true -> forall acc rest st, top_ok st ->
  exists acc' toks' w, gloop acc (mkDec (flat t ++ rest) st) = Got acc' (mkDec toks' (w ++ st)).
Proof.
  induction t as [pos n a kids IH|t|] using node_ind'; intros H acc rest st Ht; [|discriminate|discriminate].
  cbn [has_elem] in H. cbn [flat app]. rewrite <- app_assoc. cbn [app]. rewrite tloop_start by (exact Ht || apply gr_shorter).
  destruct (existsb (has_elem ($"gr")) kids) eqn:E.
  - clear H. assert (G : forall ks acc r, Forall (fun t => has_elem ($"gr") t = true -> forall acc rest st, top_ok st ->
      exists acc' toks' w, gloop acc (mkDec (flat t ++ rest) st) = Got acc' (mkDec toks' (w ++ st))) ks -> existsb (has_elem ($"gr")) ks = true ->
      exists acc' toks' w, gloop acc (mkDec (flat_map flat ks ++ r) (Some n :: st)) = Got acc' (mkDec toks' (w ++ Some n :: st))).
    { induction ks as [|k ks IHk]; intros acc' r Hks E'; [discriminate|]. inversion Hks as [|? ? H1 H2]; subst. cbn [existsb] in E'.
      cbn [flat_map]. rewrite <- app_assoc. destruct (has_elem ($"gr") k) eqn:Ek.
      - apply H1; [reflexivity|exact I].
      - rewrite (gr_run1 k Ek) by exact I. apply IHk; assumption. }
    destruct (G kids acc (TEnd n :: rest) IH E) as (acc' & toks' & w & R). exists acc', toks', (w ++ [Some n]). rewrite <- app_assoc. exact R.
  - rewrite orb_false_r in H. apply beqb_eq in H. subst n. change (flat_map flat kids) with (flats kids). rewrite gr_run by (exact I || exact E).
    rewrite tloop_end. eexists _, _, []. reflexivity.
Qed.
Lemma gr_bad : forall ks acc r st, top_ok st -> existsb (has_elem ($"gr")) ks = true ->
  exists acc' toks' w, gloop acc (mkDec (flats ks ++ r) st) = Got acc' (mkDec toks' (w ++ st)).
Proof.
  induction ks as [|k ks IHk]; intros acc r st Ht E; [discriminate|]. cbn [existsb] in E. rewrite flats_cons, <- app_assoc.
  destruct (has_elem ($"gr") k) eqn:Ek; [apply gr_bad1; assumption|]. rewrite (gr_run1 k Ek) by exact Ht. apply IHk; assumption.
Qed.

(** ** unmarshalInterface *)
Lemma iface_got : forall {A} (f : decoder -> res A) toks n s x r,
  f (mkDec toks (Some n :: None :: s)) = Got x (mkDec r (None :: s)) -> unmarshal_interface f (mkDec toks (Some n :: s)) = Got x (mkDec r s).
Proof. intros A f toks n s x r H. unfold unmarshal_interface. cbn [d_toks d_stk push_eof]. rewrite H. reflexivity. Qed.
Lemma iface_fail : forall {A} (f : decoder -> res A) toks n s r,
  f (mkDec toks (Some n :: None :: s)) = Fail (mkDec r (None :: s)) -> unmarshal_interface f (mkDec toks (Some n :: s)) = Fail (mkDec r s).
Proof. intros A f toks n s r H. unfold unmarshal_interface. cbn [d_toks d_stk push_eof]. rewrite H. reflexivity. Qed.
Lemma iface_dirty : forall {A} (f : decoder -> res A) toks n s,
  ends (f (mkDec toks (Some n :: None :: s))) (fun d' => exists x, above (x :: None :: s) (d_stk d')) ->
  ends (unmarshal_interface f (mkDec toks (Some n :: s))) (fun d' => above (None :: s) (d_stk d')).
Proof.
  intros A f toks n s H. unfold unmarshal_interface. cbn [d_toks d_stk push_eof].
  assert (P : forall x st, above (x :: None :: s) st -> above (None :: s) (snd (pop_eof st))).
  { intros x st [[|y w] ->].
    - cbn [app]. destruct x; cbn; [eexists [_]; reflexivity|apply above_refl].
    - cbn [app]. destruct y; cbn; [eexists (_ :: w ++ [x]); cbn; rewrite <- app_assoc; reflexivity|exists (w ++ [x]); rewrite <- app_assoc; reflexivity]. }
  destruct (f _) as [x d|d|]; unfold ends in *; cbn [dec_of] in *; [|destruct H as [x H]; cbn; eapply P; exact H|exact I].
  destruct H as [y H]. apply P in H. destruct (pop_eof (d_stk d)) as [[] st]; exact H.
Qed.

(** ** Instructions *)
Ltac branches name := repeat match goal with |- context [if beqb name ?k then _ else _] => let B := fresh "B" in destruct (beqb name k) eqn:B end.
Ltac attr := match goal with |- context [match Load.float_attr F parse_float ?k ?a ?x with _ => _ end] => destruct (Load.float_attr F parse_float k a x) end.
Lemma decode_not_text : forall depth pos n a d t d', decode_instruction depth pos n a d <> Got (ITextBlock t) d'.
Proof.
  intros [|k] pos n a d t d'; cbn [Load.decode_instruction]; [discriminate|]. unfold decode_registered.
  assert (W : forall B (r : res B) f, (forall x, f x <> Some (ITextBlock t)) -> with_attrs F r f <> Got (ITextBlock t) d').
  { intros B [x e|e|] f H; cbn; try discriminate. specialize (H x). destruct (f x); [intro E; injection E as -> ->; congruence|discriminate]. }
  assert (S : forall st g, (forall s, g s <> ITextBlock t) -> styled_as F parse_float convert_float order pos a st g <> Some (ITextBlock t)).
  { intros st g H. unfold styled_as. destruct decode_styled; cbn; [intro E; injection E as E; exact (H _ E)|discriminate]. }
  branches n; try discriminate; try (attr; [|discriminate]); apply W.
  all: try (intros [x y]; apply S; discriminate). all: intro x; try (apply S; discriminate); try discriminate.
  - destruct repeat_header; [apply S|]; discriminate.
  - destruct decode_spans as [[]|]; [apply S|]; discriminate.
Qed.

(** The loops of the model, as the two kinds of loops above. *)
Section Model.
Variable k : nat.
Local Notation decode := (decode_instruction k).
Lemma instructions_is : forall name acc d, instructions_loop F decode name acc d =
  tloop name (strict_start (fun acc l => acc ++ l) decode) (add_text (fun acc l => acc ++ l)) acc d.
Proof.
  intros. apply token_ext; [reflexivity|]. intros t acc'. unfold text_block, add_text. destruct t; cbn; [rewrite app_nil_r|]; reflexivity.
Qed.
Lemma table_is : forall name d, table_loop F decode name d =
  tloop name (strict_start (fun acc l => acc ++ rows_of l) decode) (add_text (fun acc l => acc ++ rows_of l)) [] d.
Proof.
  intros. apply token_ext.
  - intros pos n a acc d'. unfold strict_start. destruct (decode pos n a d') as [[] d''|d''|]; try reflexivity; cbn; rewrite app_nil_r; reflexivity.
  - intros t acc'. unfold add_text. destruct t; cbn; rewrite app_nil_r; reflexivity.
Qed.
Lemma row_is : forall name d, row_loop F decode name d =
  tloop name (strict_start (fun acc l => acc ++ cells_of l) decode) (add_text (fun acc l => acc ++ cells_of l)) [] d.
Proof.
  intros. apply token_ext.
  - intros pos n a acc d'. unfold strict_start. destruct (decode pos n a d') as [[] d''|d''|]; try reflexivity; cbn; rewrite app_nil_r; reflexivity.
  - intros t acc'. unfold add_text. destruct t; cbn; rewrite app_nil_r; reflexivity.
Qed.
Lemma cell_is : forall name d, cell_loop F decode name d =
  tloop name (loose_start (fun acc l => acc ++ l) decode) (add_text (fun acc l => acc ++ l)) [] d.
Proof.
  intros. apply token_ext; [reflexivity|]. intros t acc'. unfold text_block, add_text. destruct t; cbn; [rewrite app_nil_r|]; reflexivity.
Qed.
Definition grid_add (acc : list (xgridrow F) * list (xgridpart F)) (l : list instr) := (fst acc ++ gridrows_of l, snd acc ++ parts_of l).
Lemma grid_is : forall name d, grid_loop F decode name d = tloop name (loose_start grid_add decode) (add_text grid_add) ([], []) d.
Proof.
  intros. apply token_ext.
  - intros pos n a [x y] d'. unfold loose_start, grid_add. destruct (decode pos n a d') as [[] d''|d''|]; try reflexivity; cbn; rewrite !app_nil_r; reflexivity.
  - intros t [x y]. unfold add_text, grid_add. destruct t; cbn; rewrite !app_nil_r; reflexivity.
Qed.
Lemma part_is : forall name d, part_loop F decode name d =
  tloop name (loose_start (fun acc l => acc ++ no_text l) decode) (add_text (fun acc l => acc ++ no_text l)) [] d.
Proof.
  intros. apply token_ext.
  - intros pos n a acc d'. unfold loose_start. pose proof (decode_not_text k pos n a d') as H.
    destruct (decode pos n a d') as [i d''|d''|]; try reflexivity. destruct i; try reflexivity. exfalso. eapply H. reflexivity.
  - intros t acc'. unfold add_text. destruct t; cbn; rewrite app_nil_r; reflexivity.
Qed.
End Model.

Lemma opened_names : forall pos n a kids, outcome_at pos n a kids = Opened -> In n (map (fun s => $ s) ["td"; "grid"; "part"]%string) -> False.
Proof.
  intros pos n a kids H. cbn [map In]. intros [<-|[<-|[<-|[]]]]; unfold outcome_at, outcome_of in H; cbn [beqb] in H; revert H.
  all: match goal with |- context [beqb ?x ?y] => idtac end; cbv [beqb]; cbn.
  - destruct (looses kids); [|discriminate]. destruct (decode_spans a 0 0) as [[]|]; [|discriminate]. destruct (option_map _ _); discriminate.
  - destruct (looses kids); [|discriminate]. destruct grid_valid; [|discriminate]. destruct (option_map _ _); discriminate.
  - destruct (looses kids); [|discriminate]. destruct (option_map _ _); discriminate.
Qed.

Definition agrees (d : decoder) (r : list token) (s : list (option bytes)) (o : outcome) (R : res instr) : Prop :=
  match o with
  | Taken i => R = Got i (mkDec r s)
  | Dropped => R = Fail (mkDec r s)
  | Opened => R = Fail d
  | Broken => ends R (fun d' => above (None :: s) (d_stk d'))
  end.
Lemma with_taken : forall {A} (R : res A) (f : A -> option instr) x d r s, R = Got x (mkDec r s) -> agrees d r s (taken (f x)) (with_attrs F R f).
Proof. intros A R f x d r s ->. cbn. destruct (f x); reflexivity. Qed.
Definition iface_ok {A} (f : decoder -> res A) (toks : list token) (n : bytes) (s : list (option bytes)) (r : list token) (x : option A) : Prop :=
  match x with
  | Some v => f (mkDec toks (Some n :: None :: s)) = Got v (mkDec r (None :: s))
  | None => ends (f (mkDec toks (Some n :: None :: s))) (fun d' => exists x, above (x :: None :: s) (d_stk d'))
  end.
Lemma with_iface : forall {A} (f : decoder -> res A) (g : A -> option instr) toks n s r x d, iface_ok f toks n s r x ->
  agrees d r s (match x with Some v => taken (g v) | None => Broken end) (with_attrs F (unmarshal_interface f (mkDec toks (Some n :: s))) g).
Proof.
  intros A f g toks n s r [v|] d H; cbn in H.
  - apply with_taken. apply iface_got. exact H.
  - cbn. apply with_ends. apply iface_dirty. exact H.
Qed.

Theorem sim : forall depth t, size t <= depth -> sim_at (decode_instruction depth) t.
Proof.
  induction depth as [|k IH]; intros t Ht; [pose proof (size_pos t); lia|].
  destruct t as [pos n a kids|t|]; try exact I. rewrite size_elem in Ht. intros r s. cbv zeta.
  assert (Hs : Forall (sim_at (decode_instruction k)) kids).
  { apply Forall_forall. intros t Hin. apply IH. enough (size t <= sizes kids) by lia. clear - Hin.
    induction kids as [|t' ks IHk]; [contradiction|]. rewrite sizes_cons. destruct Hin as [->|Hin]; [lia|]. specialize (IHk Hin). lia. }
  assert (Hl : forall t, size t <= sizes kids -> sim_at (decode_instruction k) t) by (intros; apply IH; lia).
  assert (Hsh := decode_shorter parse_float convert_float order k). assert (Hcl := decode_closes parse_float convert_float order k).
  set (d := mkDec (flats kids ++ TEnd n :: r) (Some n :: s)).
  change (agrees d r s (outcome_at pos n a kids) (decode_instruction (S k) pos n a d)).
  unfold outcome_at, outcome_of. cbn [Load.decode_instruction]. unfold decode_registered.
  assert (Hleaf : forall f, agrees d r s (taken (option_map (fun st => f st (chars_of kids)) (styled pos true a (field_styles kids))))
     (with_attrs F (styled_leaf F d) (fun '(st, t) => styled_as F parse_float convert_float order pos a st (fun st' => f st' t)))).
  { intro f. exact (with_taken _ (fun '(st, t) => styled_as F parse_float convert_float order pos a st (fun st' => f st' t)) _ d _ _ (styled_run kids n r s)). }
  assert (Hmove : forall key (f : F -> instr), agrees d r s (match float_attr key a zero with Some x => Taken (f x) | None => Opened end)
     (match float_attr key a zero with None => Fail d | Some x => with_attrs F (plain_leaf d) (fun _ => Some (f x)) end)).
  { intros key f. destruct (float_attr key a zero) as [x|]; [|reflexivity].
    exact (with_taken _ (fun _ => Some (f x)) _ d _ _ (plain_run kids n r s)). }
  assert (Hblock : forall f, agrees d r s
     (match styled pos false a (no_styles F) with
      | Some _ => match stricts kids with Some iss => taken (option_map (fun st => f st iss) (styled pos true a (no_styles F))) | None => Broken end
      | None => Broken end)
     (with_attrs F (unmarshal_interface (unmarshal_instructions F parse_float convert_float order (decode_instruction k) pos n a) d)
        (fun iss => styled_as F parse_float convert_float order pos a (no_styles F) (fun st => f st iss)))).
  { intro f.
    pose (x := match styled pos false a (no_styles F) with Some _ => stricts kids | None => None end).
    assert (E : match styled pos false a (no_styles F) with
      | Some _ => match stricts kids with Some iss => taken (option_map (fun st => f st iss) (styled pos true a (no_styles F))) | None => Broken end
      | None => Broken end = match x with Some iss => taken (styled_as F parse_float convert_float order pos a (no_styles F) (fun st => f st iss)) | None => Broken end).
    { unfold x. destruct (styled pos false a (no_styles F)); reflexivity. }
    rewrite E. apply with_iface with (g := fun iss => styled_as F parse_float convert_float order pos a (no_styles F) (fun st => f st iss)).
    unfold iface_ok, x, unmarshal_instructions. destruct (styled pos false a (no_styles F)) as [st|]; [|cbn; eexists; apply above_refl].
    rewrite instructions_is.
    pose proof (strict_run (fun acc l => acc ++ l) (@app_nil_r _) (fun acc l m => @app_assoc _ acc l m) (decode_instruction k) Hsh Hcl n kids Hs [] r (None :: s)) as R.
    cbv zeta in R. destruct (stricts kids); exact R. }
  assert (Happ : forall {B} (g : list instr -> list B), (forall l m, g (l ++ m) = g l ++ g m) -> forall (acc : list B) l m, acc ++ g (l ++ m) = (acc ++ g l) ++ g m).
  { intros B g Hg acc l m. rewrite Hg, app_assoc. reflexivity. }
  assert (Hrows : forall l m, @rows_of F (l ++ m) = rows_of l ++ rows_of m) by (intros; apply flat_map_app).
  assert (Hcells : forall l m, @cells_of F (l ++ m) = cells_of l ++ cells_of m) by (intros; apply flat_map_app).
  assert (Hnt : forall l m, @no_text F (l ++ m) = no_text l ++ no_text m) by (intros; apply filter_app).
  destruct (beqb n ($"font")) eqn:B1; [exact (Hleaf (fun st _ => IFont st))|].
  destruct (beqb n ($"box")) eqn:B2; [apply Hblock|].
  destruct (beqb n ($"text")) eqn:B3; [apply Hblock|].
  destruct (beqb n ($"lf")) eqn:B4; [apply Hmove|].
  destruct (beqb n ($"setx")) eqn:B5; [apply Hmove|].
  destruct (beqb n ($"sety")) eqn:B6; [apply Hmove|].
  destruct (beqb n ($"image")) eqn:B7; [apply Hleaf|].
  destruct (beqb n ($"table")) eqn:B8.
  { assert (E : forall x, match x with
      | Some iss => match repeat_header a 0 with
                    | Some m => taken (option_map (fun st => ITable (XTable st m (rows_of iss))) (styled pos true a (no_styles F)))
                    | None => Dropped end
      | None => Broken end =
      match option_map (@rows_of F) x with
      | Some rows => taken (match repeat_header a 0 with None => None | Some m => styled_as F parse_float convert_float order pos a (no_styles F) (fun st => ITable (XTable st m rows)) end)
      | None => Broken end).
    { intros [l|]; [|reflexivity]. cbn. destruct (repeat_header a 0); reflexivity. }
    rewrite E. apply with_iface with (g := fun rows => match repeat_header a 0 with None => None | Some m => styled_as F parse_float convert_float order pos a (no_styles F) (fun st => ITable (XTable st m rows)) end).
    unfold iface_ok. rewrite table_is.
    pose proof (strict_run (fun acc l => acc ++ rows_of l) (@app_nil_r _) (Happ _ _ Hrows) (decode_instruction k) Hsh Hcl n kids Hs [] r (None :: s)) as R.
    cbv zeta in R. destruct (stricts kids); exact R. }
  destruct (beqb n ($"tr")) eqn:B9.
  { assert (E : forall x, match x with
      | Some iss => taken (option_map (fun st => ITableRow (XRow st (cells_of iss))) (styled pos true a (no_styles F)))
      | None => Broken end =
      match option_map (@cells_of F) x with
      | Some cells => taken (styled_as F parse_float convert_float order pos a (no_styles F) (fun st => ITableRow (XRow st cells)))
      | None => Broken end).
    { intros [l|]; reflexivity. }
    rewrite E. apply with_iface with (g := fun cells => styled_as F parse_float convert_float order pos a (no_styles F) (fun st => ITableRow (XRow st cells))).
    unfold iface_ok. rewrite row_is.
    pose proof (strict_run (fun acc l => acc ++ cells_of l) (@app_nil_r _) (Happ _ _ Hcells) (decode_instruction k) Hsh Hcl n kids Hs [] r (None :: s)) as R.
    cbv zeta in R. destruct (stricts kids); exact R. }
  destruct (beqb n ($"td")) eqn:B10.
  { assert (E : forall x, match x with
      | Some iss => match decode_spans a 0 0 with
                  | Some (cs, rs) => taken (option_map (fun st => ITableCell (XCell st cs rs iss)) (styled pos true a (no_styles F)))
                  | None => Dropped end
      | None => Broken end =
      match x with
      | Some iss => taken (match decode_spans a 0 0 with None => None | Some (cs, rs) => styled_as F parse_float convert_float order pos a (no_styles F) (fun st => ITableCell (XCell st cs rs iss)) end)
      | None => Broken end).
    { intros [l|]; [|reflexivity]. cbn. destruct (decode_spans a 0 0) as [[]|]; reflexivity. }
    rewrite E. apply with_iface with (g := fun iss => match decode_spans a 0 0 with None => None | Some (cs, rs) => styled_as F parse_float convert_float order pos a (no_styles F) (fun st => ITableCell (XCell st cs rs iss)) end).
    unfold iface_ok. rewrite cell_is.
    pose proof (loose_run_all (fun acc l => acc ++ l) (@app_nil_r _) (fun acc l m => @app_assoc _ acc l m) (decode_instruction k) Hsh Hcl n) as R.
    specialize (R ltac:(intros p m b ks O; destruct (beqb m n) eqn:Bm; [|reflexivity]; apply beqb_eq in Bm; apply beqb_eq in B10; subst; exfalso; eapply opened_names; [exact O|cbn; auto]) kids Hl [] r (None :: s)).
    cbv zeta in R. destruct (looses kids); exact R. }
  destruct (beqb n ($"grid")) eqn:B11.
  { pose proof (loose_run_all grid_add ltac:(intros [x y]; unfold grid_add; cbn; rewrite !app_nil_r; reflexivity)
      ltac:(intros [x y] l m; unfold grid_add, gridrows_of, parts_of; cbn; rewrite !flat_map_app, !app_assoc; reflexivity) (decode_instruction k) Hsh Hcl n) as R.
    specialize (R ltac:(intros p m b ks O; destruct (beqb m n) eqn:Bm; [|reflexivity]; apply beqb_eq in Bm; apply beqb_eq in B11; subst; exfalso; eapply opened_names; [exact O|cbn; auto]) kids Hl ([], []) r (None :: s)).
    cbv zeta in R. rewrite <- grid_is in R. destruct (looses kids) as [iss|].
    - unfold grid_add in R. cbn [fst snd app] in R. destruct (grid_valid F (gridrows_of iss) (parts_of iss)) eqn:V.
      + assert (I1 : iface_ok (unmarshal_grid F (decode_instruction k) n) (flats kids ++ TEnd n :: r) n s r (Some (gridrows_of iss, parts_of iss))).
        { unfold iface_ok, unmarshal_grid. rewrite R, V. reflexivity. }
        exact (with_iface _ (fun '(rows, parts) => styled_as F parse_float convert_float order pos a (no_styles F) (fun st => IGrid st rows parts)) _ _ _ _ _ d I1).
      + cbn [agrees]. unfold d. rewrite (iface_fail _ _ n s r); [reflexivity|]. unfold unmarshal_grid. rewrite R, V. reflexivity.
    - cbn [agrees]. apply with_ends, iface_dirty. unfold unmarshal_grid.
      destruct (grid_loop F (decode_instruction k) n _) as [[x y] d'|d'|]; [|exact R|exact R]. destruct (grid_valid F x y); exact R. }
  destruct (beqb n ($"gr")) eqn:B12.
  { apply beqb_eq in B12. subst n. destruct (existsb (has_elem ($"gr")) kids) eqn:G.
    - cbn [agrees]. apply with_ends. apply (iface_dirty (gridrow_loop ($"gr")) (flats kids ++ TEnd ($"gr") :: r) ($"gr") s).
      destruct (gr_bad kids [] (TEnd ($"gr") :: r) (Some ($"gr") :: None :: s) I G) as (acc' & toks' & w & R).
      change (gridrow_loop ($"gr") (mkDec (flats kids ++ TEnd ($"gr") :: r) (Some ($"gr") :: None :: s)) = Got acc' (mkDec toks' (w ++ Some ($"gr") :: None :: s))) in R.
      assert (E : ends (Got acc' (mkDec toks' (w ++ Some ($"gr") :: None :: s))) (fun d' => exists x, above (x :: None :: s) (d_stk d'))).
      { cbn. eexists. exists w. reflexivity. }
      rewrite <- R in E. exact E.
    - pose proof (gr_run kids [] (TEnd ($"gr") :: r) (Some ($"gr") :: None :: s) I G) as R. rewrite tloop_end in R.
      exact (with_iface (gridrow_loop ($"gr")) (fun areas => styled_as F parse_float convert_float order pos a (no_styles F) (fun st => IGridRow (XGridRow st areas))) _ _ s r (Some _) d R). }
  destruct (beqb n ($"part")) eqn:B13.
  { assert (E : forall x, match x with
      | Some iss => taken (option_map (fun st => IGridPart (XGridPart st (decode_area a []) (no_text iss))) (styled pos true a (no_styles F)))
      | None => Broken end =
      match option_map (@no_text F) x with
      | Some iss => taken (styled_as F parse_float convert_float order pos a (no_styles F) (fun st => IGridPart (XGridPart st (decode_area a []) iss)))
      | None => Broken end).
    { intros [l|]; reflexivity. }
    rewrite E. apply with_iface with (g := fun iss => styled_as F parse_float convert_float order pos a (no_styles F) (fun st => IGridPart (XGridPart st (decode_area a []) iss))).
    unfold iface_ok. rewrite part_is.
    pose proof (loose_run_all (fun acc l => acc ++ no_text l) (@app_nil_r _) (Happ _ _ Hnt) (decode_instruction k) Hsh Hcl n) as R.
    specialize (R ltac:(intros p m b ks O; destruct (beqb m n) eqn:Bm; [|reflexivity]; apply beqb_eq in Bm; apply beqb_eq in B13; subst; exfalso; eapply opened_names; [exact O|cbn; auto]) kids Hl [] r (None :: s)).
    cbv zeta in R. destruct (looses kids); exact R. }
  destruct (beqb n ($"p")) eqn:B14; [apply Hleaf|].
  destruct (beqb n ($"br")) eqn:B15; [exact (with_taken _ (fun _ => Some ILineBreak) _ d _ _ (plain_run kids n r s))|].
  destruct (beqb n ($"newpage")) eqn:B16; [exact (with_taken _ (fun _ => Some IPageBreak) _ d _ _ (plain_run kids n r s))|].
  reflexivity.
Qed.
End Tree.
