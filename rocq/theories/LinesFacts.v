(** Line breaking as a fold over tokens, and the proof that it follows the rules of LinesSpec.v. *)
From Coq Require Import Lia.
From Verif Require Import GoStr GoFmt GoStrFacts Num Style Class Text Instr Engine EngineFacts Layout Lines LinesSpec.
From Verif Require TextSpec TextFacts.
Local Open Scope nat_scope.

Section Pure.
Context {F : Num}.
Variables (hyph : bytes -> list bytes) (width : F).
Local Notation frag := (frag F).
Local Notation group := (group F).
Local Notation token := (token F).

(** The longest prefix of at most [i] parts that fits. *)
Fixpoint best (parts : list bytes) (t : F) (m : bytes -> F) (i : nat) : option nat :=
  match i with
  | O => None
  | S i' => if head_fits width t (firstn (i' + 1) parts) m then Some (i' + 1) else best parts t m i'
  end.
Definition cut (w : bytes) (t : F) (m : bytes -> F) : option nat :=
  if (List.length (hyph w) <? 2) then None else best (hyph w) t m (List.length (hyph w) - 1).
Definition step (x : list group * list frag) (t : token) : list group * list frag :=
  let '(gs, cur) := x in
  match t with
  | TBreak => (gs ++ [mkGroup cur Broken], [])
  | TWord st w m =>
      if overflows width (total cur) w m then
        match cut w (total cur) m with
        | None => (gs ++ [mkGroup cur Wrapped], [Whole st w m])
        | Some k => (gs ++ [mkGroup (cur ++ [Head st w (firstn k (hyph w)) (skipn k (hyph w)) m]) Wrapped],
                     [Tail st (List.concat (skipn k (hyph w))) m])
        end
      else (gs, cur ++ [Whole st w m])
  end.
Definition finish (x : list group * list frag) : list group :=
  let '(gs, cur) := x in match cur with [] => gs | _ => gs ++ [mkGroup cur Final] end.

Lemma best_some : forall parts t m i k, best parts t m i = Some k ->
  1 <= k <= i /\ head_fits width t (firstn k parts) m = true /\ forall j, k < j <= i -> head_fits width t (firstn j parts) m = false.
Proof.
  intros parts t m. induction i as [|i IH]; intros k H; cbn [best] in H; [discriminate H|].
  destruct (head_fits width t (firstn (i + 1) parts) m) eqn:E.
  - injection H as <-. split; [lia|]. split; [exact E|]. intros j Hj. lia.
  - destruct (IH k H) as (A & B & C). split; [lia|]. split; [exact B|]. intros j Hj.
    destruct (Nat.eq_dec j (i + 1)) as [->|Hn]; [exact E|]. apply C. lia.
Qed.
Lemma best_none : forall parts t m i, best parts t m i = None -> forall j, 1 <= j <= i -> head_fits width t (firstn j parts) m = false.
Proof.
  intros parts t m. induction i as [|i IH]; intros H j Hj; cbn [best] in H; [lia|].
  destruct (head_fits width t (firstn (i + 1) parts) m) eqn:E; [discriminate H|].
  destruct (Nat.eq_dec j (i + 1)) as [->|Hn]; [exact E|]. apply IH; [exact H|lia].
Qed.
Lemma firstn_prefix : forall A (a b l : list A), l = a ++ b -> firstn (List.length a) l = a.
Proof. intros A a b l ->. rewrite firstn_app, Nat.sub_diag, firstn_all. cbn. apply app_nil_r. Qed.
Lemma cut_none : forall w t m, cut w t m = None -> forall a b, divides hyph w a b -> head_fits width t a m = false.
Proof.
  intros w t m H a b (E & Ha & Hb). unfold cut in H. assert (L : List.length (hyph w) = List.length a + List.length b) by (rewrite E; apply app_length).
  assert (1 <= List.length a) by (destruct a; [congruence|cbn; lia]). assert (1 <= List.length b) by (destruct b; [congruence|cbn; lia]).
  destruct (Nat.ltb_spec (List.length (hyph w)) 2); [lia|].
  rewrite <- (firstn_prefix _ a b (hyph w) E). apply (best_none _ _ _ _ H). lia.
Qed.
Lemma cut_some : forall w t m k, cut w t m = Some k ->
  let a := firstn k (hyph w) in let b := skipn k (hyph w) in
  divides hyph w a b /\ head_fits width t a m = true /\ forall c d, divides hyph w (a ++ c) d -> c <> [] -> head_fits width t (a ++ c) m = false.
Proof.
  intros w t m k H a b. unfold cut in H. destruct (Nat.ltb_spec (List.length (hyph w)) 2) as [|L]; [discriminate H|].
  destruct (best_some _ _ _ _ _ H) as (A & B & C). split; [|split; [exact B|]].
  - split; [symmetry; apply firstn_skipn|]. split; intro N.
    + apply (f_equal (@List.length _)) in N. unfold a in N. rewrite firstn_length in N. cbn in N. lia.
    + apply (f_equal (@List.length _)) in N. unfold b in N. rewrite skipn_length in N. cbn in N. lia.
  - intros c d (E & _ & Hd) Hc.
    assert (Lh : List.length (hyph w) = List.length (a ++ c) + List.length d) by (rewrite E at 1; rewrite app_length; reflexivity).
    rewrite app_length in Lh. assert (List.length a = k) by (unfold a; rewrite firstn_length; lia).
    assert (1 <= List.length c) by (destruct c; [congruence|cbn; lia]). assert (1 <= List.length d) by (destruct d; [congruence|cbn; lia]).
    rewrite <- (firstn_prefix _ (a ++ c) d (hyph w) E). apply C. rewrite app_length. lia.
Qed.

Definition last_or (p : option group) (gs : list group) : option group := match rev gs with [] => p | g :: _ => Some g end.
Lemma groups_snoc : forall gs p g, groups_ok hyph width p (gs ++ [g]) <-> groups_ok hyph width p gs /\ group_ok hyph width (last_or p gs) g.
Proof.
  induction gs as [|g0 gs IH]; intros p g; cbn [groups_ok app].
  - unfold last_or. cbn. tauto.
  - rewrite IH. assert (E : last_or p (g0 :: gs) = last_or (Some g0) gs).
    { unfold last_or. cbn [rev]. destruct (rev gs); reflexivity. }
    rewrite E. tauto.
Qed.
Lemma last_snoc : forall p gs g, last_or p (gs ++ [g]) = Some g.
Proof. intros. unfold last_or. rewrite rev_app_distr. reflexivity. Qed.

(** ending a line *)
Lemma group_end : forall prev fs e e', group_ok hyph width prev (mkGroup fs e) -> existsb is_head fs = false -> group_ok hyph width prev (mkGroup fs e').
Proof.
  intros prev fs e e' [A B] Hh. split; [|exact B]. intros pre f post E. cbn [g_frags] in *. destruct (A pre f post E) as [A1 _]. split; [exact A1|].
  intros K. exfalso. rewrite E in Hh. rewrite existsb_app in Hh. cbn in Hh. rewrite K in Hh. cbn in Hh. apply orb_false_elim in Hh as [_ Hh]. discriminate Hh.
Qed.
(** adding a word *)
Lemma group_add : forall prev fs e e' f, group_ok hyph width prev (mkGroup fs e) -> existsb is_head fs = false ->
  frag_ok hyph width prev fs f -> (is_head f = true -> e' = Wrapped) ->
  (fs <> [] \/ match prev with Some (mkGroup _ Wrapped) => False | _ => True end) ->
  group_ok hyph width prev (mkGroup (fs ++ [f]) e').
Proof.
  intros prev fs e e' f [A B] Hh Hf He Hne. split; cbn [g_frags g_end] in *.
  - intros pre f' post E. destruct post as [|x post] using rev_ind.
    + change (pre ++ [f']) with (pre ++ [f']) in E. apply app_inj_tail in E as [<- <-]. split; [exact Hf|]. intros K. split; [reflexivity|exact (He K)].
    + clear IHpost. change (pre ++ f' :: post ++ [x]) with (pre ++ (f' :: post) ++ [x]) in E. rewrite app_assoc in E. apply app_inj_tail in E as [E ->].
      destruct (A pre f' post E) as [A1 _]. split; [exact A1|]. intros K. exfalso. rewrite E, existsb_app in Hh. cbn in Hh. rewrite K in Hh.
      cbn in Hh. apply orb_false_elim in Hh as [_ Hh]. discriminate Hh.
  - destruct prev as [[p []]|]; try exact I. destruct Hne as [Hne|[]].
    destruct (rev p) as [|[]].
    + destruct B as (st & w & m & fs' & ->). exists st, w, m, (fs' ++ [f]). reflexivity.
    + destruct B as (st' & w' & m' & fs' & ->). exists st', w', m', (fs' ++ [f]). reflexivity.
    + destruct B as (fs' & ->). exists (fs' ++ [f]). reflexivity.
    + destruct B as (st' & w' & m' & fs' & ->). exists st', w', m', (fs' ++ [f]). reflexivity.
Qed.

Lemma flat_one : forall A B (f : A -> list B) x, flat_map f [x] = f x.
Proof. intros. cbn. apply app_nil_r. Qed.
Lemma tokens_wrapped : forall fs : list frag, group_tokens (mkGroup fs Wrapped) = flat_map frag_tokens fs.
Proof. intros. unfold group_tokens. cbn [g_frags g_end]. apply app_nil_r. Qed.
Definition state_ok (ts : list token) (x : list group * list frag) : Prop :=
  let '(gs, cur) := x in
  flat_map group_tokens gs ++ flat_map frag_tokens cur = ts /\ groups_ok hyph width None (gs ++ [mkGroup cur Final]) /\
  existsb is_head cur = false /\ (forall g, In g gs -> g_end g <> Final).

Lemma group_nil : forall prev e, match prev with Some (mkGroup _ Wrapped) => False | _ => True end -> group_ok hyph width prev (mkGroup [] e).
Proof. intros prev e H. split; [intros pre f post E; destruct pre; discriminate E|]. destruct prev as [[p []]|]; try exact I. contradiction. Qed.
Lemma not_wrapped_nil : forall prev e, group_ok hyph width prev (mkGroup [] e) -> match prev with Some (mkGroup _ Wrapped) => False | _ => True end.
Proof.
  intros prev e [_ B]. destruct prev as [[p []]|]; try exact I. cbn [g_frags] in B. destruct (rev p) as [|[]].
  - destruct B as (? & ? & ? & ? & B). discriminate B.
  - destruct B as (? & ? & ? & ? & B). discriminate B.
  - destruct B as (? & B). discriminate B.
  - destruct B as (? & ? & ? & ? & B). discriminate B.
Qed.
Lemma step_ok : forall ts x t, state_ok ts x -> state_ok (ts ++ [t]) (step x t).
Proof.
  intros ts [gs cur] t (T & G & H & E). apply groups_snoc in G as [G1 G2]. set (prev := last_or None gs) in *.
  destruct t as [st w m|]; cbn [step].
  - assert (Hne : cur <> [] \/ match prev with Some (mkGroup _ Wrapped) => False | _ => True end).
    { destruct cur; [right; exact (not_wrapped_nil _ _ G2)|left; discriminate]. }
    destruct (overflows width (total cur) w m) eqn:Eo.
    + destruct (cut w (total cur) m) as [k|] eqn:Ec.
      * assert (C := cut_some _ _ _ _ Ec). cbv zeta in C. set (a := firstn k (hyph w)) in *. set (b := skipn k (hyph w)) in *.
        assert (G3 : group_ok hyph width prev (mkGroup (cur ++ [Head st w a b m]) Wrapped)).
        { apply (group_add _ _ Final _ _ G2 H); [|reflexivity|exact Hne]. cbn [frag_ok]. split; [exact Eo|]. exact C. }
        split; [|split; [|split]].
        -- rewrite flat_map_app, flat_one, tokens_wrapped, flat_map_app, flat_one. cbn [frag_tokens flat_map]. rewrite app_nil_r, <- T, <- !app_assoc. reflexivity.
        -- apply groups_snoc. rewrite last_snoc. split; [apply groups_snoc; split; assumption|]. split.
           ++ intros pre f post K. cbn [g_frags] in K. destruct pre as [|x pre]; cbn in K; [|destruct pre; discriminate K]. injection K as <- <-.
              split; [|discriminate]. split; [reflexivity|]. exists cur, w, a, b. split; reflexivity.
           ++ rewrite rev_app_distr. cbn. exists []. reflexivity.
        -- reflexivity.
        -- intros g Hg. apply in_app_or in Hg as [Hg|[<-|[]]]; [exact (E g Hg)|discriminate].
      * split; [|split; [|split]].
        -- rewrite flat_map_app, flat_one, tokens_wrapped. rewrite <- T, <- !app_assoc. reflexivity.
        -- apply groups_snoc. rewrite last_snoc. split; [apply groups_snoc; split; [exact G1|exact (group_end _ _ _ _ G2 H)]|]. split.
           ++ intros pre f post K. cbn [g_frags] in K. destruct pre as [|x pre]; cbn in K; [|destruct pre; discriminate K]. injection K as <- <-.
              split; [|discriminate]. split; [exact Eo|]. exact (cut_none _ _ _ Ec).
           ++ destruct (rev cur) as [|[]] eqn:Er; try (exists st, w, m, []; reflexivity). exfalso.
              apply (f_equal (@rev _)) in Er. rewrite rev_involutive in Er. cbn in Er. rewrite Er, existsb_app in H. cbn in H. rewrite orb_comm in H. discriminate H.
        -- reflexivity.
        -- intros g Hg. apply in_app_or in Hg as [Hg|[<-|[]]]; [exact (E g Hg)|discriminate].
    + split; [|split; [|split]].
      * rewrite flat_map_app. cbn. rewrite <- T, <- app_assoc. reflexivity.
      * apply groups_snoc. split; [exact G1|]. fold prev. apply (group_add _ _ Final _ _ G2 H); [|discriminate|exact Hne].
        cbn [frag_ok]. destruct cur; [|exact Eo]. destruct Hne as [Hne|Hne]; [congruence|]. destruct prev as [[p []]|]; try exact Eo. contradiction.
      * rewrite existsb_app, H. reflexivity.
      * exact E.
  - split; [|split; [|split]].
    + rewrite flat_map_app. cbn. rewrite !app_nil_r, <- T, <- !app_assoc. reflexivity.
    + apply groups_snoc. rewrite last_snoc. split; [apply groups_snoc; split; [exact G1|exact (group_end _ _ _ _ G2 H)]|]. apply group_nil. exact I.
    + reflexivity.
    + intros g Hg. apply in_app_or in Hg as [Hg|[<-|[]]]; [exact (E g Hg)|discriminate].
Qed.
Lemma fold_ok : forall ts, state_ok ts (fold_left step ts ([], [])).
Proof.
  induction ts as [|t ts IH] using rev_ind.
  - split; [reflexivity|]. split; [|split; [reflexivity|intros ? []]]. split; [|exact I]. apply group_nil. exact I.
  - rewrite fold_left_app. apply step_ok. exact IH.
Qed.
Lemma finish_ok : forall ts x, state_ok ts x -> broken_into hyph width ts (finish x).
Proof.
  intros ts [gs cur] (T & G & H & E). cbn [finish]. destruct cur as [|f cur].
  - apply groups_snoc in G as [G1 G2]. apply not_wrapped_nil in G2. cbn in T. rewrite app_nil_r in T. split; [exact T|exact G1|].
    intros a g b Eg. split.
    + intros Ef. exfalso. apply (E g); [rewrite Eg; apply in_or_app; right; left; reflexivity|exact Ef].
    + intros ->. rewrite Eg, last_snoc in G2. destruct g as [p []]; cbn; congruence.
  - split.
    + rewrite flat_map_app, flat_one. unfold group_tokens at 2. cbn [g_frags g_end]. rewrite app_nil_r. exact T.
    + exact G.
    + intros a g b Eg. destruct b as [|x b] using rev_ind.
      * apply app_inj_tail in Eg as [<- <-]. cbn. split; [intros _; split; [reflexivity|discriminate]|discriminate].
      * clear IHb. change (a ++ g :: b ++ [x]) with (a ++ (g :: b) ++ [x]) in Eg. rewrite app_assoc in Eg. apply app_inj_tail in Eg as [Eg _].
        split; [|destruct b; discriminate]. intros Ef. exfalso. apply (E g); [rewrite Eg; apply in_or_app; right; left; reflexivity|exact Ef].
Qed.
Lemma layout_ok : forall ts, broken_into hyph width ts (finish (fold_left step ts ([], []))).
Proof. intros ts. apply finish_ok, fold_ok. Qed.
End Pure.

(** ** Words *)
Lemma words_split : forall s cur, (forall c, In c s -> TextSpec.blankb c = true -> c = sp) ->
  TextSpec.words_from cur s = filter (fun w => match w with [] => false | _ => true end)
    (match split_byte sp s with [] => [] | w :: ws => (rev cur ++ w) :: ws end).
Proof.
  induction s as [|c s IH]; intros cur H.
  - cbn. rewrite app_nil_r. destruct cur as [|x cur]; [reflexivity|]. cbn [rev]. destruct (rev cur ++ [x]) eqn:E; [destruct (rev cur); discriminate E|reflexivity].
  - cbn [TextSpec.words_from split_byte]. assert (Hs : forall c0, In c0 s -> TextSpec.blankb c0 = true -> c0 = sp) by (intros c0 Hc; apply H; right; exact Hc).
    destruct (TextSpec.blankb c) eqn:Eb.
    + rewrite (H c (or_introl eq_refl) Eb) in *. rewrite Ascii.eqb_refl. rewrite (IH [] Hs). cbn [rev app]. rewrite app_nil_r.
      destruct (split_byte sp s) as [|w ws] eqn:Es; [exfalso; exact (split_byte_nonempty _ _ Es)|].
      destruct cur as [|x cur]; [reflexivity|]. cbn [rev filter]. destruct (rev cur ++ [x]) eqn:E; [destruct (rev cur); discriminate E|reflexivity].
    + assert (Hc : Ascii.eqb c sp = false). { destruct (Ascii.eqb_spec c sp) as [->|]; [discriminate Eb|reflexivity]. }
      rewrite Hc, (IH (c :: cur) Hs). destruct (split_byte sp s) as [|w ws] eqn:Es; [exfalso; exact (split_byte_nonempty _ _ Es)|].
      cbn [rev]. rewrite <- app_assoc. reflexivity.
Qed.
Lemma empty_in_tail : forall s, In [] (tl (split_byte sp s)) -> (exists t, s = t ++ [sp]) \/ TextSpec.occurs [sp; sp] s.
Proof.
  induction s as [|c s IH]; intros H; [destruct H|]. cbn [split_byte] in H. destruct (Ascii.eqb_spec c sp) as [->|Hc].
  - cbn [tl] in H. destruct (split_byte sp s) as [|w ws] eqn:Es; [exfalso; exact (split_byte_nonempty _ _ Es)|].
    destruct H as [->|H].
    + destruct s as [|d s]; [left; exists []; reflexivity|]. cbn [split_byte] in Es. destruct (Ascii.eqb_spec d sp) as [->|Hd].
      * right. exists [], s. reflexivity.
      * destruct (split_byte sp s); discriminate Es.
    + destruct (IH H) as [(t & ->)|(a & b & ->)]; [left; exists (sp :: t); reflexivity|right; exists (sp :: a), b; reflexivity].
  - destruct (split_byte sp s) as [|w ws] eqn:Es; [exfalso; exact (split_byte_nonempty _ _ Es)|]. cbn [tl] in *.
    destruct (IH H) as [(t & ->)|(a & b & ->)]; [left; exists (c :: t); reflexivity|right; exists (c :: a), b; reflexivity].
Qed.
Lemma normal_words : forall s, TextSpec.normal_form s ->
  Lines.words s = match TextSpec.words s with [] => [[]] | ws => ws end /\ (s = [] <-> TextSpec.words s = []).
Proof.
  intros s (N1 & N2 & N3 & N4 & _). unfold Lines.words, TextSpec.words.
  assert (B : forall c, In c s -> TextSpec.blankb c = true -> c = sp).
  { intros c Hc Hb. apply TextFacts.blankb_spec in Hb. destruct (N1 c Hc) as (A1 & A2 & A3). destruct Hb as [?|[?|[?|?]]]; congruence. }
  rewrite (words_split s [] B). cbn [rev app]. destruct s as [|c s]; [cbn; split; [reflexivity|tauto]|].
  assert (T : ~ In [] (split_byte sp (c :: s))).
  { intros Hi. destruct (split_byte sp (c :: s)) as [|w ws] eqn:Es; [destruct Hi|]. destruct Hi as [->|Hi].
    - cbn [split_byte] in Es. destruct (Ascii.eqb_spec c sp) as [->|Hd]; [exact (N2 s eq_refl)|]. destruct (split_byte sp s); discriminate Es.
    - destruct (empty_in_tail (c :: s)) as [(t & E)|E]; [rewrite Es; exact Hi|exact (N3 t E)|exact (N4 E)]. }
  assert (Fl : filter (fun w : bytes => match w with [] => false | _ => true end) (split_byte sp (c :: s)) = split_byte sp (c :: s)).
  { clear -T. induction (split_byte sp (c :: s)) as [|w ws IH]; [reflexivity|]. cbn [filter]. destruct w as [|x w]; [exfalso; apply T; left; reflexivity|].
    rewrite IH; [reflexivity|]. intro K. apply T. right. exact K. }
  assert (Es : split_byte sp (c :: s) <> []) by apply split_byte_nonempty.
  destruct (split_byte sp (c :: s)) as [|w ws]; [congruence|]. unfold bytes in *. cbn [app] in *. rewrite Fl. split; [reflexivity|]. split; discriminate.
Qed.
