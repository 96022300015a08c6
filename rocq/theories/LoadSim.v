(** Loading the tokens of a tree. *)
From Coq Require Import ZArith Lia.
From Verif Require Import GoStr GoStrFacts Num Style Class Instr Xml Load LoadSpec LoadFacts LoadInv.
Local Open Scope nat_scope.

Fixpoint node_ind' (P : node -> Prop) (HE : forall pos n a kids, Forall P kids -> P (Elem pos n a kids))
  (HC : forall t, P (Chars t)) (HO : P Other) (t : node) : P t :=
  match t with
  | Elem pos n a kids => HE pos n a kids ((fix go l : Forall P l := match l with [] => Forall_nil _ | k :: l' => Forall_cons _ (node_ind' P HE HC HO k) (go l') end) kids)
  | Chars t => HC t
  | Other => HO
  end.

Definition size (t : node) : nat := List.length (flat t).
Definition sizes (ts : list node) : nat := List.length (flats ts).
Lemma flats_cons : forall t ts, flats (t :: ts) = flat t ++ flats ts. Proof. reflexivity. Qed.
Lemma sizes_cons : forall t ts, sizes (t :: ts) = size t + sizes ts.
Proof. intros. unfold sizes. rewrite flats_cons, app_length. reflexivity. Qed.
Lemma size_elem : forall pos n a kids, size (Elem pos n a kids) = S (S (sizes kids)).
Proof. intros. unfold size, sizes. cbn. rewrite app_length. cbn. unfold flats. lia. Qed.
Lemma size_pos : forall t, 0 < size t. Proof. intros []; cbn; lia. Qed.

(** ** Fuel does not matter *)
Lemma fields_fuel : forall {A} (field : nat -> bytes -> attrs -> A -> option (decoder -> res A)) chars,
  (forall pos n a acc f, field pos n a acc = Some f -> keeps shorter f) ->
  forall f f' acc d, List.length (d_toks d) < f -> List.length (d_toks d) < f' ->
  fields_loop field chars f acc d = fields_loop field chars f' acc d.
Proof.
  intros A field chars Hk. induction f as [|f IH]; intros [|f'] acc d H H'; try lia. cbn [fields_loop].
  destruct (next d) as [[t|] d'] eqn:E; [|reflexivity]. pose proof (next_some _ _ _ E).
  destruct t as [pos n a|n|t|]; try (apply IH; lia); try reflexivity.
  destruct (field pos n a acc) as [g|] eqn:G.
  - pose proof (Hk _ _ _ _ _ G d') as S. destruct (g d') as [x d''|d''|]; try reflexivity. unfold ends, shorter in S; cbn in S. apply IH; lia.
  - pose proof (skip_shorter d') as S. destruct (skip d') as [x d''|d''|]; try reflexivity. unfold ends, shorter in S; cbn in S. apply IH; lia.
Qed.
Lemma token_fuel : forall {A} name (on_start : nat -> bytes -> attrs -> A -> decoder -> res A) on_char,
  (forall pos n a acc, keeps shorter (on_start pos n a acc)) ->
  forall f f' acc d, List.length (d_toks d) < f -> List.length (d_toks d) < f' ->
  token_loop name on_start on_char f acc d = token_loop name on_start on_char f' acc d.
Proof.
  intros A name os oc Hk. induction f as [|f IH]; intros [|f'] acc d H H'; try lia. cbn [token_loop].
  destruct (next d) as [[t|] d'] eqn:E; [|reflexivity]. pose proof (next_some _ _ _ E).
  destruct t as [pos n a|n|t|]; try (apply IH; lia).
  - pose proof (Hk pos n a acc d') as S. destruct (os pos n a acc d') as [x d''|d''|]; try reflexivity. unfold ends, shorter in S; cbn in S. apply IH; lia.
  - destruct (beqb n name); [reflexivity|apply IH; lia].
Qed.

(** ** Skip *)
Lemma top_some : forall n s, top_ok (Some n :: s). Proof. intros; exact I. Qed.
#[local] Hint Resolve top_some : core.
Lemma next_start_run : forall pos n a r s, top_ok s -> next (mkDec (TStart pos n a :: r) s) = (Some (TStart pos n a), mkDec r (Some n :: s)).
Proof. intros pos n a r [|[m|] s] H; try contradiction; reflexivity. Qed.
Lemma next_end_run : forall n r s, next (mkDec (TEnd n :: r) (Some n :: s)) = (Some (TEnd n), mkDec r s).
Proof. intros. unfold next. cbn. rewrite beqb_refl. reflexivity. Qed.
Lemma next_char_run : forall t r s, top_ok s -> next (mkDec (TChar t :: r) s) = (Some (TChar t), mkDec r s).
Proof. intros t r [|[m|] s] H; try contradiction; reflexivity. Qed.
Lemma next_other_run : forall r s, top_ok s -> next (mkDec (TOther :: r) s) = (Some TOther, mkDec r s).
Proof. intros r [|[m|] s] H; try contradiction; reflexivity. Qed.

Lemma skip_go_S : forall f depth d, skip_go (S f) depth d =
    match next d with
    | (None, d') => Fail d'
    | (Some (TStart _ _ _), d') => skip_go f (S depth) d'
    | (Some (TEnd _), d') => match depth with O => Got tt d' | S k => skip_go f k d' end
    | (Some _, d') => skip_go f depth d'
    end.
Proof. reflexivity. Qed.
Lemma skip_go_flat : forall t f depth rest st, top_ok st -> skip_go (size t + f) depth (mkDec (flat t ++ rest) st) = skip_go f depth (mkDec rest st).
Proof.
  induction t as [pos n a kids IH|t|] using node_ind'; intros f depth rest st Ht.
  - rewrite size_elem. cbn [flat app Nat.add]. rewrite skip_go_S, next_start_run by exact Ht. cbv beta iota.
    assert (G : forall ks f' depth' rest', Forall (fun t => forall f depth rest st, top_ok st -> skip_go (size t + f) depth (mkDec (flat t ++ rest) st) = skip_go f depth (mkDec rest st)) ks ->
      skip_go (sizes ks + f') depth' (mkDec (flats ks ++ rest') (Some n :: st)) = skip_go f' depth' (mkDec rest' (Some n :: st))).
    { induction ks as [|k ks IHk]; intros f' depth' rest' Hk; [reflexivity|]. inversion Hk; subst.
      rewrite sizes_cons, flats_cons, <- app_assoc, <- Nat.add_assoc. rewrite H1 by exact I. apply IHk. exact H2. }
    change (flat_map flat kids) with (flats kids). rewrite <- app_assoc. replace (S (sizes kids + f)) with (sizes kids + (S f)) by lia.
    rewrite G by exact IH. cbn [app]. rewrite skip_go_S, next_end_run. reflexivity.
  - cbn. rewrite next_char_run by exact Ht. reflexivity.
  - cbn. rewrite next_other_run by exact Ht. reflexivity.
Qed.
Lemma skip_go_flats : forall ts f depth rest st, top_ok st -> skip_go (sizes ts + f) depth (mkDec (flats ts ++ rest) st) = skip_go f depth (mkDec rest st).
Proof.
  induction ts as [|t ts IH]; intros f depth rest st Ht; [reflexivity|].
  rewrite sizes_cons, flats_cons, <- app_assoc, <- Nat.add_assoc, skip_go_flat by exact Ht. apply IH. exact Ht.
Qed.
Lemma skip_run : forall kids n r s, skip (mkDec (flats kids ++ TEnd n :: r) (Some n :: s)) = Got tt (mkDec r s).
Proof.
  intros. unfold skip, enough. cbn [d_toks]. rewrite app_length. cbn [List.length].
  replace (S (List.length (flats kids) + S (List.length r))) with (sizes kids + S (S (List.length r))) by (unfold sizes; lia).
  rewrite skip_go_flats by exact I. cbn [skip_go]. rewrite next_end_run. reflexivity.
Qed.

(** ** Leaves *)
Section Fields.
Context {A : Type}.
Variable field : nat -> bytes -> attrs -> A -> option (decoder -> res A).
Variable chars : bytes -> A -> A.
Hypothesis Hk : forall pos n a acc f, field pos n a acc = Some f -> keeps shorter f.
Definition floop (acc : A) (d : decoder) : res A := fields_loop field chars (enough d) acc d.
Lemma fields_S : forall f acc d, fields_loop field chars (S f) acc d =
    match next d with
    | (None, d') => Fail d'
    | (Some (TStart pos n a), d') =>
        match field pos n a acc with
        | Some g => match g d' with Got acc' d'' => fields_loop field chars f acc' d'' | r => r end
        | None => match skip d' with Got _ d'' => fields_loop field chars f acc d'' | Fail d'' => Fail d'' | Fuel => Fuel end
        end
    | (Some (TEnd _), d') => Got acc d'
    | (Some (TChar t), d') => fields_loop field chars f (chars t acc) d'
    | (Some TOther, d') => fields_loop field chars f acc d'
    end.
Proof. reflexivity. Qed.
Lemma floop_chars : forall t r s acc, top_ok s -> floop acc (mkDec (TChar t :: r) s) = floop (chars t acc) (mkDec r s).
Proof. intros. unfold floop, enough. cbn [d_toks List.length]. rewrite fields_S, next_char_run by assumption. reflexivity. Qed.
Lemma floop_other : forall r s acc, top_ok s -> floop acc (mkDec (TOther :: r) s) = floop acc (mkDec r s).
Proof. intros. unfold floop, enough. cbn [d_toks List.length]. rewrite fields_S, next_other_run by assumption. reflexivity. Qed.
Lemma floop_end : forall n r s acc, floop acc (mkDec (TEnd n :: r) (Some n :: s)) = Got acc (mkDec r s).
Proof. intros. unfold floop, enough. cbn [d_toks List.length]. rewrite fields_S, next_end_run. reflexivity. Qed.
Lemma floop_start : forall pos n a r s acc, top_ok s ->
  floop acc (mkDec (TStart pos n a :: r) s) =
  match field pos n a acc with
  | Some f => match f (mkDec r (Some n :: s)) with Got acc' d => floop acc' d | x => x end
  | None => match skip (mkDec r (Some n :: s)) with Got _ d => floop acc d | Fail d => Fail d | Fuel => Fuel end
  end.
Proof.
  intros. unfold floop at 1, enough. cbn [d_toks List.length]. rewrite fields_S, next_start_run by assumption.
  destruct (field pos n a acc) as [f|] eqn:G.
  - pose proof (Hk _ _ _ _ _ G (mkDec r (Some n :: s))) as S. destruct (f _) as [x d|d|]; try reflexivity.
    unfold ends, shorter in S. cbn in S. unfold floop. apply fields_fuel; auto; unfold enough; lia.
  - pose proof (skip_shorter (mkDec r (Some n :: s))) as S. destruct (skip _) as [x d|d|]; try reflexivity.
    unfold ends, shorter in S. cbn in S. unfold floop. apply fields_fuel; auto; unfold enough; lia.
Qed.
(** The effect of each child, when at most [N] tokens are left, is [effect]; [None] is an error. *)
Variable N : nat.
Variable effect : node -> A -> option A.
Hypothesis He_chars : forall t acc, effect (Chars t) acc = Some (chars t acc).
Hypothesis He_other : forall acc, effect Other acc = Some acc.
Hypothesis He_elem : forall pos n a kids acc,
  match field pos n a acc with
  | None => effect (Elem pos n a kids) acc = Some acc
  | Some f => forall r s, List.length (flats kids ++ TEnd n :: r) <= N ->
                          match effect (Elem pos n a kids) acc with
                          | Some acc' => f (mkDec (flats kids ++ TEnd n :: r) (Some n :: s)) = Got acc' (mkDec r s)
                          | None => exists d, f (mkDec (flats kids ++ TEnd n :: r) (Some n :: s)) = Fail d
                          end
  end.
Fixpoint effects (ts : list node) (acc : A) : option A :=
  match ts with [] => Some acc | t :: ts' => match effect t acc with Some acc' => effects ts' acc' | None => None end end.
Lemma floop_run : forall kids n r s acc, List.length (flats kids ++ TEnd n :: r) <= N ->
  match effects kids acc with
  | Some acc' => floop acc (mkDec (flats kids ++ TEnd n :: r) (Some n :: s)) = Got acc' (mkDec r s)
  | None => exists d, floop acc (mkDec (flats kids ++ TEnd n :: r) (Some n :: s)) = Fail d
  end.
Proof.
  induction kids as [|t kids IH]; intros n r s acc HN; cbn [effects]; [apply floop_end|].
  rewrite flats_cons, <- app_assoc in *. destruct t as [pos m a ks|t|]; cbn [flat app List.length] in *.
  - rewrite <- app_assoc in *. change (flat_map flat ks) with (flats ks) in *. cbn [app] in *. rewrite floop_start by exact I.
    assert (HN' : List.length (flats kids ++ TEnd n :: r) <= N) by (rewrite app_length in HN; cbn [List.length] in HN; lia).
 pose proof (He_elem pos m a ks acc) as H.
    destruct (field pos m a acc) as [f|].
    + specialize (H (flats kids ++ TEnd n :: r) (Some n :: s) ltac:(lia)). destruct (effect (Elem pos m a ks) acc) as [acc'|].
      * rewrite H. apply IH. exact HN'.
      * destruct H as [d H]. exists d. rewrite H. reflexivity.
    + rewrite H. rewrite skip_run. apply IH. exact HN'.
  - rewrite He_chars. rewrite floop_chars by exact I. apply IH. lia.
  - rewrite He_other. rewrite floop_other by exact I. apply IH. lia.
Qed.
End Fields.

Lemma string_run : forall kids n r s, string_value (mkDec (flats kids ++ TEnd n :: r) (Some n :: s)) = Got (chars_of kids) (mkDec r s).
Proof.
  intros. pose proof (floop_run (fun _ _ _ _ => None) (fun t acc => acc ++ t) ltac:(discriminate) (List.length (flats kids ++ TEnd n :: r))
    (fun k acc => match k with Chars t => Some (acc ++ t) | _ => Some acc end)
    ltac:(reflexivity) ltac:(reflexivity) ltac:(reflexivity) kids n r s (@nil ascii) (le_n _)) as H.
  assert (E : forall acc, effects (fun k acc => match k with Chars t => Some (acc ++ t) | _ => Some acc end) kids acc = Some (acc ++ chars_of kids)).
  { clear. induction kids as [|[] kids IH]; intro acc; cbn; [rewrite app_nil_r; reflexivity|apply IH|rewrite IH, <- app_assoc; reflexivity|apply IH]. }
  rewrite E in H. exact H.
Qed.
Lemma plain_run : forall kids n r s, plain_leaf (mkDec (flats kids ++ TEnd n :: r) (Some n :: s)) = Got tt (mkDec r s).
Proof.
  intros. pose proof (floop_run (fun _ _ _ _ => None) (fun t acc => acc) ltac:(discriminate) (List.length (flats kids ++ TEnd n :: r)) (fun k acc => Some acc)
    ltac:(reflexivity) ltac:(reflexivity) ltac:(reflexivity) kids n r s tt (le_n _)) as H.
  assert (E : forall acc : unit, effects (fun k acc => Some acc) kids acc = Some acc) by (clear; induction kids; intro; cbn; auto).
  rewrite E in H. exact H.
Qed.
Section Styled.
Context {F : Num}.
Definition styled_effect (k : node) (acc : Styled F * bytes) : option (Styled F * bytes) :=
  let '(st, t) := acc in
  match k with
  | Chars c => Some (st, t ++ c)
  | Other => Some acc
  | Elem _ n _ ks =>
      if beqb n ($"Mutators") then Some (mkStyled (st_mutators st ++ [[]]) (st_classes st), t)
      else if beqb n ($"Classes") then Some (mkStyled (st_mutators st) (st_classes st ++ [chars_of ks]), t)
      else Some acc
  end.
Lemma styled_run : forall kids n r s, styled_leaf F (mkDec (flats kids ++ TEnd n :: r) (Some n :: s)) = Got (field_styles kids, chars_of kids) (mkDec r s).
Proof.
  intros. pose proof (floop_run (styled_field F) (fun t acc => (fst acc, snd acc ++ t)) ltac:(apply styled_field_keeps; eauto with keeps) (List.length (flats kids ++ TEnd n :: r)) styled_effect
    ltac:(intros t []; reflexivity) ltac:(intros []; reflexivity)) as H.
  assert (He : forall pos n0 a ks (acc : Styled F * bytes), match styled_field F pos n0 a acc with
    | None => styled_effect (Elem pos n0 a ks) acc = Some acc
    | Some f => forall r' s, List.length (flats ks ++ TEnd n0 :: r') <= List.length (flats kids ++ TEnd n :: r) -> match styled_effect (Elem pos n0 a ks) acc with
        | Some acc' => f (mkDec (flats ks ++ TEnd n0 :: r') (Some n0 :: s)) = Got acc' (mkDec r' s)
        | None => exists d, f (mkDec (flats ks ++ TEnd n0 :: r') (Some n0 :: s)) = Fail d end end).
  { intros pos m a ks [st t]. unfold styled_field, styled_effect. destruct (beqb m ($"Mutators")); [|destruct (beqb m ($"Classes")); [|reflexivity]]; intros.
    - rewrite skip_run. reflexivity.
    - rewrite string_run. reflexivity. }
  specialize (H He kids n r s (no_styles F, []) (le_n _)).
  assert (E : forall m c t, effects styled_effect kids (mkStyled m c, t) =
     Some (mkStyled (m ++ st_mutators (@field_styles F kids)) (c ++ st_classes (@field_styles F kids)), t ++ chars_of kids)).
  { clear. induction kids as [|k kids IH]; intros m c t; cbn [effects].
    - cbn. rewrite !app_nil_r. reflexivity.
    - unfold field_styles, chars_of. cbn [flat_map st_mutators st_classes]. fold (@field_styles F kids). fold (chars_of kids).
      destruct k as [pos n a ks|x|]; unfold styled_effect at 1; cbn [st_mutators st_classes].
      + destruct (beqb n ($"Mutators")) eqn:B1; [|destruct (beqb n ($"Classes")) eqn:B2]; rewrite IH.
        * assert (B2 : beqb n ($"Classes") = false) by (apply beqb_eq in B1; subst n; reflexivity). rewrite B2, <- app_assoc. reflexivity.
        * rewrite <- app_assoc. reflexivity.
        * reflexivity.
      + rewrite IH, <- app_assoc. reflexivity.
      + rewrite IH. reflexivity. }
  unfold no_styles in H. rewrite E in H. exact H.
Qed.
End Styled.
