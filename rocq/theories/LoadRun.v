(** Loading the tokens of a document. *)
From Coq Require Import ZArith Lia.
From Verif Require Import GoStr GoStrFacts Num Style Class Instr Xml Load LoadSpec LoadDocSpec LoadFacts LoadInv LoadSim LoadTree LoadReads LoadDoc.
Local Open Scope nat_scope.

Section Run.
Context {F : Num}.
Variables parse_float convert_float : bytes -> option F.
Variable order : nat -> bool -> nat -> rawmap -> rawmap.
Variable sheet_order : nat -> rawmap -> rawmap.
Local Notation instr := (instr F).
Local Notation Document := (Document F).
Local Notation decode_instruction := (decode_instruction F parse_float convert_float order).
Local Notation styled := (decode_styled F parse_float convert_float order).
Local Notation stricts := (stricts parse_float convert_float order).
Local Notation strict := (strict parse_float styled).
Local Notation section_field := (section_field F parse_float convert_float order).
Local Notation document_field := (document_field F parse_float convert_float order).
Local Notation number := (number parse_float).

(** ** What fields do in general *)
Lemma string_field_keeps : forall P : decoder -> decoder -> Prop, (forall d, P d d) -> (forall a b c : decoder, P a b -> P b c -> P a c) -> (forall d, P d (snd (next d))) ->
  forall A (set : bytes -> A), keeps P (string_field set).
Proof. intros. apply map_keeps, string_keeps; assumption. Qed.
Lemma float_field_keeps : forall P : decoder -> decoder -> Prop, (forall d, P d d) -> (forall a b c : decoder, P a b -> P b c -> P a c) -> (forall d, P d (snd (next d))) ->
  forall A (set : F -> A), keeps P (float_field F parse_float set).
Proof.
  intros P H1 H2 H3 A set d. pose proof (string_keeps P H2 H3 d) as K. unfold float_field. destruct (string_value d); try exact K.
  destruct (float_value zero parse_float a); exact K.
Qed.
Lemma struct_keeps : forall P : decoder -> decoder -> Prop, (forall d, P d d) -> (forall a b c : decoder, P a b -> P b c -> P a c) -> (forall d, P d (snd (next d))) ->
  forall A (field : nat -> bytes -> attrs -> A -> option (decoder -> res A)), (forall pos n a acc f, field pos n a acc = Some f -> keeps P f) -> forall acc, keeps P (struct field acc).
Proof. intros P H1 H2 H3 A field Hf acc d. apply fields_keeps; auto. Qed.
Ltac fld := repeat match goal with |- (if beqb ?n ?k then _ else _) = Some _ -> _ => destruct (beqb n k) end; try discriminate; let E := fresh in intro E; injection E as <-.
Lemma margins_keeps : forall P : decoder -> decoder -> Prop, (forall d, P d d) -> (forall a b c : decoder, P a b -> P b c -> P a c) -> (forall d, P d (snd (next d))) ->
  forall pos n a q f, margins_field F parse_float pos n a q = Some f -> keeps P f.
Proof. intros P H1 H2 H3 pos n a q f. unfold margins_field. fld; apply float_field_keeps; auto. Qed.
Lemma meta_keeps : forall P : decoder -> decoder -> Prop, (forall d, P d d) -> (forall a b c : decoder, P a b -> P b c -> P a c) -> (forall d, P d (snd (next d))) ->
  forall pos n a q f, meta_field pos n a q = Some f -> keeps P f.
Proof. intros P H1 H2 H3 pos n a q f. unfold meta_field. fld; apply string_field_keeps; auto. Qed.
Lemma page_keeps : forall P : decoder -> decoder -> Prop, (forall d, P d d) -> (forall a b c : decoder, P a b -> P b c -> P a c) -> (forall d, P d (snd (next d))) ->
  forall pos n a q f, page_field F parse_float pos n a q = Some f -> keeps P f.
Proof.
  intros P H1 H2 H3 pos n a q f. unfold page_field. fld; try (apply string_field_keeps; auto).
  apply map_keeps, struct_keeps; auto. apply margins_keeps; auto.
Qed.
Lemma document_keeps : forall P : decoder -> decoder -> Prop, (forall d, P d d) -> (forall a b c : decoder, P a b -> P b c -> P a c) -> (forall d, P d (snd (next d))) ->
  forall depth, (forall pos n a iss, In n [$"header"; $"footer"; $"body"] -> keeps P (section_field depth pos n a iss)) ->
  forall pos n a q f, document_field depth pos n a q = Some f -> keeps P f.
Proof.
  intros P H1 H2 H3 depth Hs pos n a [m p s h ft b] f. unfold Load.document_field.
  destruct (beqb n ($"meta")); [intro E; injection E as <-; apply map_keeps, struct_keeps; auto; apply meta_keeps; auto|].
  destruct (beqb n ($"page")); [intro E; injection E as <-; apply map_keeps, struct_keeps; auto; apply page_keeps; auto|].
  destruct (beqb n ($"style")); [intro E; injection E as <-; apply string_field_keeps; auto|].
  destruct (beqb n ($"header")) eqn:B; [apply beqb_eq in B; subst n; intro E; injection E as <-; apply map_keeps, Hs; cbn; auto|].
  clear B. destruct (beqb n ($"footer")) eqn:B; [apply beqb_eq in B; subst n; intro E; injection E as <-; apply map_keeps, Hs; cbn; auto|].
  clear B. destruct (beqb n ($"body")) eqn:B; [apply beqb_eq in B; subst n; intro E; injection E as <-; apply map_keeps, Hs; cbn; auto|discriminate].
Qed.
Lemma section_shorter : forall depth pos n a iss, keeps shorter (section_field depth pos n a iss).
Proof.
  intros depth pos n a iss. unfold Load.section_field. apply iface_shorter. intro d. destruct (styled pos false a (no_styles F)); [|unfold ends, shorter; cbn; lia].
  apply instructions_keeps; eauto with keeps. intros p m b d1 d2 N. pose proof (next_some _ _ _ N). pose proof (decode_shorter parse_float convert_float order depth p m b d2) as S.
  destruct (decode_instruction depth p m b d2); unfold ends, shorter in *; cbn in *; lia.
Qed.
Lemma section_returns : forall depth pos n a iss d, List.length (d_toks d) <= depth -> returns (section_field depth pos n a iss d).
Proof.
  intros depth pos n a iss d H. unfold Load.section_field. apply iface_returns. intro s. destruct (styled pos false a (no_styles F)); [|discriminate].
  apply instructions_returns with (N := depth); [|apply decode_shorter|exact H]. intros. apply decode_returns. assumption.
Qed.

(** ** Runs *)
Lemma float_run : forall A (set : F -> A) kids n r s, let d := mkDec (flats kids ++ TEnd n :: r) (Some n :: s) in
  match number (chars_of kids) with
  | Some x => float_field F parse_float set d = Got (set x) (mkDec r s)
  | None => exists d', float_field F parse_float set d = Fail d'
  end.
Proof. intros. unfold d, float_field. rewrite string_run. fold (number (chars_of kids)). destruct (number (chars_of kids)); eauto. Qed.
Lemma string_field_run : forall A (set : bytes -> A) kids n r s,
  string_field set (mkDec (flats kids ++ TEnd n :: r) (Some n :: s)) = Got (set (chars_of kids)) (mkDec r s).
Proof. intros. unfold string_field. rewrite string_run. reflexivity. Qed.

Definition margins_effect (k : node) (q : Quad F) : option (Quad F) :=
  match k with
  | Elem _ n _ ks =>
      let set f := option_map f (number (chars_of ks)) in
      if beqb n ($"left") then set (fun v => mkQuad v (QTop q) (QRight q) (QBottom q))
      else if beqb n ($"top") then set (fun v => mkQuad (QLeft q) v (QRight q) (QBottom q))
      else if beqb n ($"right") then set (fun v => mkQuad (QLeft q) (QTop q) v (QBottom q))
      else if beqb n ($"bottom") then set (fun v => mkQuad (QLeft q) (QTop q) (QRight q) v)
      else Some q
  | _ => Some q
  end.
Lemma margins_run : forall kids n r s q, let d := mkDec (flats kids ++ TEnd n :: r) (Some n :: s) in
  match effects margins_effect kids q with
  | Some q' => struct (margins_field F parse_float) q d = Got q' (mkDec r s)
  | None => exists d', struct (margins_field F parse_float) q d = Fail d'
  end.
Proof.
  intros kids n r s q. unfold struct.
  apply (floop_run (margins_field F parse_float) (fun _ acc => acc) (margins_keeps shorter shorter_refl shorter_trans next_shorter) (List.length (flats kids ++ TEnd n :: r))); auto.
  intros pos m a ks acc. unfold margins_field, margins_effect.
  assert (G : forall (set : F -> Quad F) (r0 : list token) (s0 : list (option bytes)), List.length (flats ks ++ TEnd m :: r0) <= List.length (flats kids ++ TEnd n :: r) ->
     match option_map set (number (chars_of ks)) with
     | Some acc' => float_field F parse_float set (mkDec (flats ks ++ TEnd m :: r0) (Some m :: s0)) = Got acc' (mkDec r0 s0)
     | None => exists d, float_field F parse_float set (mkDec (flats ks ++ TEnd m :: r0) (Some m :: s0)) = Fail d end).
  { intros set r0 s0 _. pose proof (float_run _ set ks m r0 s0) as R. cbv zeta in R. destruct (number (chars_of ks)); exact R. }
  destruct (beqb m ($"left")); [apply G|]. destruct (beqb m ($"top")); [apply G|]. destruct (beqb m ($"right")); [apply G|]. destruct (beqb m ($"bottom")); [apply G|reflexivity].
Qed.
Definition page_effect (k : node) (p : Page F) : option (Page F) :=
  match k with
  | Elem _ n _ ks =>
      if beqb n ($"orientation") then Some (mkPage F (chars_of ks) (p_format F p) (p_margins F p))
      else if beqb n ($"format") then Some (mkPage F (p_orientation F p) (chars_of ks) (p_margins F p))
      else if beqb n ($"margins") then option_map (fun q => mkPage F (p_orientation F p) (p_format F p) q) (effects margins_effect ks (p_margins F p))
      else Some p
  | _ => Some p
  end.
Lemma page_run : forall kids n r s q, let d := mkDec (flats kids ++ TEnd n :: r) (Some n :: s) in
  match effects page_effect kids q with
  | Some q' => struct (page_field F parse_float) q d = Got q' (mkDec r s)
  | None => exists d', struct (page_field F parse_float) q d = Fail d'
  end.
Proof.
  intros kids n r s q. unfold struct.
  apply (floop_run (page_field F parse_float) (fun _ acc => acc) (page_keeps shorter shorter_refl shorter_trans next_shorter) (List.length (flats kids ++ TEnd n :: r))); auto.
  intros pos m a ks acc. unfold page_field, page_effect.
  destruct (beqb m ($"orientation")); [intros; apply string_field_run|]. destruct (beqb m ($"format")); [intros; apply string_field_run|].
  destruct (beqb m ($"margins")); [|reflexivity]. intros r0 s0 _. pose proof (margins_run ks m r0 s0 (p_margins F acc)) as R. cbv zeta in R.
  destruct (effects margins_effect ks (p_margins F acc)); cbn [option_map]; [rewrite R; reflexivity|]. destruct R as [d R]. exists d. rewrite R. reflexivity.
Qed.
Definition meta_effect (k : node) (m : Meta) : option Meta :=
  match k with
  | Elem _ n _ ks =>
      if beqb n ($"author") then Some (mkMeta (chars_of ks) (m_creator m) (m_subject m))
      else if beqb n ($"creator") then Some (mkMeta (m_author m) (chars_of ks) (m_subject m))
      else if beqb n ($"subject") then Some (mkMeta (m_author m) (m_creator m) (chars_of ks))
      else Some m
  | _ => Some m
  end.
Lemma meta_run : forall kids n r s q, let d := mkDec (flats kids ++ TEnd n :: r) (Some n :: s) in
  match effects meta_effect kids q with
  | Some q' => struct meta_field q d = Got q' (mkDec r s)
  | None => exists d', struct meta_field q d = Fail d'
  end.
Proof.
  intros kids n r s q. unfold struct.
  apply (floop_run meta_field (fun _ acc => acc) (meta_keeps shorter shorter_refl shorter_trans next_shorter) (List.length (flats kids ++ TEnd n :: r))); auto.
  intros pos m a ks acc. unfold meta_field, meta_effect.
  destruct (beqb m ($"author")); [intros; apply string_field_run|]. destruct (beqb m ($"creator")); [intros; apply string_field_run|].
  destruct (beqb m ($"subject")); [intros; apply string_field_run|reflexivity].
Qed.
Definition section_effect (pos : nat) (a : attrs) (ks : list node) (iss : list instr) : option (list instr) :=
  match styled pos false a (no_styles F), stricts ks with Some _, Some l => Some (iss ++ l) | _, _ => None end.
Definition document_effect (k : node) (x : Document) : option Document :=
  let '(mkDoc _ m p s h f b) := x in
  match k with
  | Elem pos n a ks =>
      if beqb n ($"meta") then option_map (fun m' => mkDoc F m' p s h f b) (effects meta_effect ks m)
      else if beqb n ($"page") then option_map (fun p' => mkDoc F m p' s h f b) (effects page_effect ks p)
      else if beqb n ($"style") then Some (mkDoc F m p (chars_of ks) h f b)
      else if beqb n ($"header") then option_map (fun h' => mkDoc F m p s h' f b) (section_effect pos a ks h)
      else if beqb n ($"footer") then option_map (fun f' => mkDoc F m p s h f' b) (section_effect pos a ks f)
      else if beqb n ($"body") then option_map (fun b' => mkDoc F m p s h f b') (section_effect pos a ks b)
      else Some x
  | _ => Some x
  end.
Lemma not_known : forall n, In n [$"header"; $"footer"; $"body"; $"document"] -> ~ In n known.
Proof.
  intros n H K. assert (E : existsb (beqb n) known = true) by (apply existsb_exists; exists n; split; [exact K|apply beqb_refl]).
  destruct H as [<-|[<-|[<-|[<-|[]]]]]; vm_compute in E; discriminate.
Qed.
Lemma document_run : forall depth kids n r s x, let d := mkDec (flats kids ++ TEnd n :: r) (Some n :: s) in
  List.length (d_toks d) <= depth ->
  match effects document_effect kids x with
  | Some x' => struct (document_field depth) x d = Got x' (mkDec r s)
  | None => exists d', struct (document_field depth) x d = Fail d'
  end.
Proof.
  intros depth kids n r s q d HN. unfold struct.
  apply (floop_run (document_field depth) (fun _ acc => acc) (document_keeps shorter shorter_refl shorter_trans next_shorter depth (fun pos n a iss _ => section_shorter depth pos n a iss)) depth); auto.
  1,2: intros; destruct acc; reflexivity.
  clear. intros pos n a ks [m p s h f b]. unfold Load.document_field, document_effect.
  assert (M : forall A (g : decoder -> res A) (mk : A -> Document) r0 s0 d o,
     match o with Some x => g d = Got x (mkDec r0 s0) | None => exists d', g d = Fail d' end ->
     match option_map mk o with Some x => map_res mk (g d) = Got x (mkDec r0 s0) | None => exists d', map_res mk (g d) = Fail d' end).
  { intros A g mk r0 s0 d [x|] H; cbn; [rewrite H; reflexivity|]. destruct H as [d' H]. exists d'. rewrite H. reflexivity. }
  assert (S : forall mk iss r0 s0, In n [$"header"; $"footer"; $"body"; $"document"] -> List.length (flats ks ++ TEnd n :: r0) <= depth ->
     match option_map mk (section_effect pos a ks iss) with
     | Some x => map_res mk (section_field depth pos n a iss (mkDec (flats ks ++ TEnd n :: r0) (Some n :: s0))) = Got x (mkDec r0 s0)
     | None => exists d', (map_res mk (section_field depth pos n a iss (mkDec (flats ks ++ TEnd n :: r0) (Some n :: s0))) : res Document) = Fail d' end).
  { intros mk iss r0 s0 Hn HN. apply M.
    pose proof (section_run parse_float convert_float order depth pos n a iss ks r0 s0 (not_known n Hn) ltac:(unfold sizes; rewrite app_length in HN; cbn in HN; lia) ltac:(apply section_returns; exact HN)) as R.
    cbv zeta in R. unfold section_effect. destruct (styled pos false a (no_styles F)); [|exact R]. destruct (stricts ks); exact R. }
  destruct (beqb n ($"meta")); [intros r0 s0 _; apply M, meta_run|].
  destruct (beqb n ($"page")); [intros r0 s0 _; apply M, page_run|].
  destruct (beqb n ($"style")); [intros r0 s0 _; apply string_field_run|].
  destruct (beqb n ($"header")) eqn:B1; [apply beqb_eq in B1; intros r0 s0 HN; apply S; [subst n; cbn; auto|exact HN]|].
  destruct (beqb n ($"footer")) eqn:B2; [apply beqb_eq in B2; intros r0 s0 HN; apply S; [subst n; cbn; auto|exact HN]|].
  destruct (beqb n ($"body")) eqn:B3; [apply beqb_eq in B3; intros r0 s0 HN; apply S; [subst n; cbn; auto|exact HN]|].
  reflexivity.
Qed.

Lemma find_run : forall prolog p n a r, no_elements prolog -> forall f, List.length prolog < f ->
  find_start f (mkDec (flats prolog ++ TStart p n a :: r) []) = Got n (mkDec r [Some n]).
Proof.
  induction prolog as [|k prolog IH]; intros p n a r H [|f] Hf; cbn [List.length] in Hf; try lia; [reflexivity|].
  assert (H' : no_elements prolog) by (intros p' n' a' ks' Hin; apply (H p' n' a' ks'); right; exact Hin).
  destruct k as [p' n' a' ks'|t|]; [exfalso; apply (H p' n' a' ks'); left; reflexivity| |]; cbn [flats flat_map flat app find_start]; rewrite ?next_char_run, ?next_other_run by exact I;
    apply (IH p n a r H' f); lia.
Qed.
Theorem decode_run : forall toks kids, tokens_of toks kids ->
  match effects document_effect kids (empty_document F) with
  | Some doc => exists d', decode_document F parse_float convert_float order toks = Got doc d'
  | None => exists d', decode_document F parse_float convert_float order toks = Fail d'
  end.
Proof.
  intros toks kids (prolog & p & a & rest & Hp & ->). unfold decode_document. cbn [flat]. rewrite <- app_comm_cons, <- app_assoc. cbn [app]. change (flat_map flat kids) with (flats kids).
  assert (L : List.length prolog <= List.length (flats prolog)).
  { clear. induction prolog as [|k prolog IH]; [reflexivity|]. rewrite flats_cons, app_length. cbn [List.length]. pose proof (size_pos k) as S. unfold size in S. lia. }
  rewrite find_run; [|exact Hp|unfold enough; cbn [d_toks]; rewrite app_length; lia].
  rewrite beqb_refl.
  set (D := enough _).
  pose proof (document_run D kids ($"document") rest [] (empty_document F)) as R. cbv zeta in R.
  specialize (R ltac:(unfold D, enough; cbn [d_toks]; rewrite !app_length; cbn [List.length]; rewrite ?app_length; cbn [List.length]; lia)).
  destruct (effects document_effect kids (empty_document F)); [|exact R]. eauto.
Qed.
End Run.
