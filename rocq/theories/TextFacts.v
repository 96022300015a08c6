(** Proofs about package text. *)
From Verif Require Import GoStr GoStrFacts Text TextSpec.

Lemma str_repeat_2 t : str_repeat t 2 = t ++ t.
Proof. simpl. rewrite app_nil_r. reflexivity. Qed.

Lemma replace_all_twin s t : t <> [] -> replace_all s (t ++ t) t = replace_go (t ++ t) t 0 s.
Proof.
  intros Hne. unfold replace_all. destruct (beqb_spec (t ++ t) t) as [E|_].
  - apply (f_equal (@List.length _)) in E. rewrite app_length in E.
    destruct t; [congruence | simpl in E; lia].
  - destruct t; [congruence | reflexivity].
Qed.

Lemma twin_len (t : bytes) : t <> [] -> t ++ t <> [] /\ List.length t < List.length (t ++ t).
Proof. destruct t; [congruence|]. intros _; split; [discriminate|]. rewrite app_length; simpl; lia. Qed.

Lemma remove_twins_loop_spec t n s :
  List.length s < n ->
  exists r, remove_twins_loop n s t = Some r /\
    (t <> [] -> ~ occ (t ++ t) r) /\ (t = [] \/ ~ occ (t ++ t) s -> r = s).
Proof.
  revert s; induction n as [|n IH]; intros s Hlen; [lia|].
  cbn [remove_twins_loop]. rewrite str_repeat_2.
  destruct (list_eq_dec ascii_dec t []) as [->|Hne].
  - simpl. unfold replace_all; simpl. rewrite beqb_refl. exists s.
    split; [reflexivity|]. split; [congruence | reflexivity].
  - rewrite replace_all_twin by assumption.
    destruct (twin_len t Hne) as [Hne2 Hlt].
    destruct (occ_dec (t ++ t) s) as [Ho|Hno].
    + pose proof (replace_go_length_lt (t ++ t) t s Hne2 Hlt Ho) as Hl.
      destruct (beqb_spec (replace_go (t ++ t) t 0 s) s) as [E|_]; [rewrite E in Hl; lia|].
      destruct (IH (replace_go (t ++ t) t 0 s) ltac:(lia)) as (r & Hr & H1 & H2).
      exists r. split; [exact Hr|]. split; [exact H1 | intros [H|H]; congruence].
    + rewrite replace_go_noocc by assumption. rewrite beqb_refl.
      exists s. split; [reflexivity|]. split; [intros _; exact Hno | reflexivity].
Qed.

(** More fuel never changes the result. *)
Lemma remove_twins_loop_mono t n m s r :
  remove_twins_loop n s t = Some r -> n <= m -> remove_twins_loop m s t = Some r.
Proof.
  revert m s; induction n as [|n IH]; intros m s H Hle; [discriminate|].
  destruct m as [|m]; [lia|]. cbn [remove_twins_loop] in *.
  destruct (beqb _ _); [exact H|]. apply IH; [exact H|lia].
Qed.

Lemma remove_twins_run s t n :
  List.length s < n -> remove_twins_loop n s t = Some (remove_twins s t).
Proof.
  intros H. unfold remove_twins.
  destruct (remove_twins_loop_spec t (S (List.length s)) s ltac:(lia)) as (r & Hr & _).
  rewrite Hr. eapply remove_twins_loop_mono; [exact Hr | lia].
Qed.
Lemma remove_twins_post s t :
  (t <> [] -> ~ occ (t ++ t) (remove_twins s t)) /\
  (t = [] \/ ~ occ (t ++ t) s -> remove_twins s t = s).
Proof.
  unfold remove_twins.
  destruct (remove_twins_loop_spec t (S (List.length s)) s ltac:(lia)) as (r & Hr & H1 & H2).
  rewrite Hr. split; assumption.
Qed.

(** One-byte twins: collapsing of runs. *)
Definition hd_is (c : ascii) (s : bytes) : Prop := exists t, s = c :: t.

Lemma collapse_cc c s : collapse c (c :: c :: s) = collapse c (c :: s).
Proof.
  change (collapse c (c :: c :: s)) with
    (if ascii_dec c c then if ascii_dec c c then collapse c (c :: s) else c :: collapse c (c :: s)
     else c :: collapse c (c :: s)).
  destruct (ascii_dec c c); congruence.
Qed.
Lemma collapse_cx c x s : x <> c -> collapse c (c :: x :: s) = c :: collapse c (x :: s).
Proof.
  intros H.
  change (collapse c (c :: x :: s)) with
    (if ascii_dec c c then if ascii_dec x c then collapse c (x :: s) else c :: collapse c (x :: s)
     else c :: collapse c (x :: s)).
  destruct (ascii_dec c c); destruct (ascii_dec x c); congruence.
Qed.
Lemma collapse_c1 c : collapse c [c] = [c].
Proof. simpl. destruct (ascii_dec c c); congruence. Qed.
Lemma collapse_x c x s : x <> c -> collapse c (x :: s) = x :: collapse c s.
Proof. intros H. simpl. destruct (ascii_dec x c); congruence. Qed.

Lemma collapse_replace c s :
  collapse c (c :: replace_go [c; c] [c] 0 s) = collapse c (c :: s) /\
  collapse c (replace_go [c; c] [c] 0 s) = collapse c s.
Proof.
  pattern s; apply (scan_ind [c; c]); [discriminate| | |].
  - split; reflexivity.
  - intros t [IH1 IH2]. rewrite replace_go_match by discriminate.
    cbn [app]. split.
    + rewrite collapse_cc, IH1, !collapse_cc. reflexivity.
    + rewrite IH1, collapse_cc. reflexivity.
  - intros x t Hp [IH1 IH2]. rewrite replace_go_nomatch by assumption.
    destruct (ascii_dec x c) as [->|Hx].
    + split; [rewrite !collapse_cc; exact IH1 | exact IH1].
    + split; [rewrite !collapse_cx by assumption | ]; rewrite !collapse_x by assumption; congruence.
Qed.

Lemma collapse_noocc c s : ~ occ [c; c] s -> collapse c s = s.
Proof.
  induction s as [|x s IH]; intros Hno; [reflexivity|].
  assert (Hs : ~ occ [c; c] s) by (intros H; apply Hno, occ_cons, H).
  specialize (IH Hs). destruct (ascii_dec x c) as [->|Hx].
  - destruct s as [|y s]; [apply collapse_c1|].
    destruct (ascii_dec y c) as [->|Hy].
    + exfalso; apply Hno. exists [], s; reflexivity.
    + rewrite collapse_cx, IH by assumption. reflexivity.
  - rewrite collapse_x, IH by assumption. reflexivity.
Qed.

Lemma remove_twins_loop_collapse c n s r :
  remove_twins_loop n s [c] = Some r -> collapse c r = collapse c s.
Proof.
  revert s; induction n as [|n IH]; intros s; [discriminate|].
  cbn [remove_twins_loop]. rewrite str_repeat_2, replace_all_twin by discriminate.
  cbn [app]. destruct (beqb_spec (replace_go [c; c] [c] 0 s) s) as [E|_].
  - intros [= <-]. congruence.
  - intros H. rewrite (IH _ H). apply collapse_replace.
Qed.

Lemma remove_twins_collapse c s : remove_twins s [c] = collapse c s.
Proof.
  pose proof (remove_twins_run s [c] (S (List.length s)) ltac:(lia)) as H.
  rewrite <- (remove_twins_loop_collapse _ _ _ _ H).
  symmetry. apply collapse_noocc. apply (remove_twins_post s [c]). discriminate.
Qed.

(** Words. *)
Lemma blankb_spec c : blankb c = true <-> blank c.
Proof.
  unfold blankb, blank.
  destruct (ascii_dec c sp); [tauto|]. destruct (ascii_dec c cr); [tauto|].
  destruct (ascii_dec c lf); [tauto|]. destruct (ascii_dec c tab); [tauto|].
  split; [discriminate | intros [H|[H|[H|H]]]; contradiction].
Qed.

Definition normc (c : ascii) : ascii := if blankb c then sp else c.

Lemma replace_controls s :
  replace_all (replace_all (replace_all s [cr] [sp]) [lf] [sp]) [tab] [sp] = map normc s.
Proof.
  rewrite !replace_all_char by discriminate. rewrite !map_map. apply map_ext; intros c.
  unfold normc, blankb.
  destruct (Ascii.eqb_spec c cr) as [->|H1]; [reflexivity|].
  destruct (Ascii.eqb_spec c lf) as [->|H2]; [reflexivity|].
  destruct (ascii_dec c sp) as [->|H3]; [reflexivity|].
  destruct (ascii_dec c cr); [congruence|]. destruct (ascii_dec c lf); [congruence|].
  destruct (Ascii.eqb_spec c tab) as [->|H4]; [reflexivity|].
  destruct (ascii_dec c tab); congruence.
Qed.

Lemma normc_blank c : blankb (normc c) = blankb c.
Proof. unfold normc. destruct (blankb c) eqn:E; [reflexivity | exact E]. Qed.
Lemma normc_id c : blankb c = false -> normc c = c.
Proof. unfold normc. intros ->; reflexivity. Qed.

Lemma words_from_norm cur s : words_from cur (map normc s) = words_from cur s.
Proof.
  revert cur; induction s as [|c s IH]; intros cur; simpl; [reflexivity|].
  rewrite normc_blank. destruct (blankb c) eqn:E.
  - rewrite IH. reflexivity.
  - rewrite (normc_id _ E). apply IH.
Qed.

Lemma words_from_nonempty cur s : cur <> [] -> words_from cur s <> [].
Proof.
  revert cur; induction s as [|c s IH]; intros cur Hc; simpl.
  - destruct cur; congruence.
  - destruct (blankb c); [destruct cur; congruence|]. apply IH; discriminate.
Qed.

Lemma words_from_snoc cur s c : blankb c = true -> words_from cur (s ++ [c]) = words_from cur s.
Proof.
  intros Hc. revert cur; induction s as [|x s IH]; intros cur; simpl.
  - rewrite Hc. destruct cur; reflexivity.
  - rewrite !IH. reflexivity.
Qed.
Lemma words_from_app_blank cur s q :
  Forall (fun c => is_sp c = true) q -> words_from cur (s ++ q) = words_from cur s.
Proof.
  revert cur s. induction q as [|c q IH]; intros cur s Hq.
  - rewrite app_nil_r; reflexivity.
  - inversion Hq as [|? ? Hc Hq']; subst.
    replace (s ++ c :: q) with ((s ++ [c]) ++ q) by (rewrite <- app_assoc; reflexivity).
    rewrite IH by assumption. apply words_from_snoc.
    unfold is_sp in Hc. apply Ascii.eqb_eq in Hc; subst. reflexivity.
Qed.
Lemma words_prefix_blank p s :
  Forall (fun c => is_sp c = true) p -> words (p ++ s) = words s.
Proof.
  induction 1 as [|c p Hc _ IH]; [reflexivity|].
  unfold is_sp in Hc. apply Ascii.eqb_eq in Hc; subst. exact IH.
Qed.
Lemma words_trim s : words (trim is_sp s) = words s.
Proof.
  destruct (trim_split is_sp s) as (p & q & Hs & Hp & Hq).
  rewrite Hs at 2. rewrite words_prefix_blank by assumption.
  symmetry. unfold words. apply words_from_app_blank, Hq.
Qed.

Lemma collapse_words cur v :
  (forall c, In c v -> blankb c = true -> c = sp) ->
  (cur <> [] \/ forall t, v <> sp :: t) ->
  (forall t, v <> t ++ [sp]) ->
  unwords (words_from cur v) = rev cur ++ collapse sp v.
Proof.
  revert cur; induction v as [|c v IH]; intros cur Hb Hh Hl.
  - simpl. destruct cur as [|x cur]; [reflexivity|]. cbn [unwords]. rewrite app_nil_r. reflexivity.
  - assert (Hb' : forall c0, In c0 v -> blankb c0 = true -> c0 = sp) by (intros; apply Hb; [right|]; assumption).
    assert (Hl' : forall t, v <> t ++ [sp]) by (intros t ->; apply (Hl (c :: t)); reflexivity).
    simpl words_from. destruct (blankb c) eqn:Hc.
    + assert (c = sp) by (apply Hb; [left; reflexivity | exact Hc]). subst c.
      destruct Hh as [Hh|Hh]; [|exfalso; exact (Hh v eq_refl)].
      destruct cur as [|k cur]; [congruence|]. remember (k :: cur) as kc eqn:Ekc.
      destruct v as [|d v]; [exfalso; exact (Hl [] eq_refl)|].
      destruct (ascii_dec d sp) as [->|Hd].
      * rewrite collapse_cc.
        assert (Hkc : kc <> []) by (subst; discriminate).
        rewrite <- (IH kc Hb' (or_introl Hkc) Hl').
        simpl. subst kc. reflexivity.
      * rewrite collapse_cx by assumption.
        assert (Hdb : blankb d = false).
        { destruct (blankb d) eqn:E; [|reflexivity]. exfalso; apply Hd, Hb'; [left; reflexivity|exact E]. }
        assert (Hne : words_from [] (d :: v) <> []).
        { simpl. rewrite Hdb. apply words_from_nonempty; discriminate. }
        assert (Hns : forall t, d :: v <> sp :: t) by (intros t Ht; congruence).
        specialize (IH [] Hb' (or_intror Hns) Hl'). change (rev [] ++ collapse sp (d :: v)) with (collapse sp (d :: v)) in IH.
        rewrite <- IH.
        destruct (words_from [] (d :: v)) as [|w ws]; [congruence|]. reflexivity.
    + assert (Hcs : c <> sp) by (intros ->; discriminate).
      assert (Hcn : c :: cur <> []) by discriminate.
      rewrite (IH (c :: cur) Hb' (or_introl Hcn) Hl').
      rewrite collapse_x by assumption. simpl. rewrite <- app_assoc. reflexivity.
Qed.

Lemma norm_blanks s c : In c (trim is_sp (map normc s)) -> blankb c = true -> c = sp.
Proof.
  intros Hin Hb. destruct (trim_split is_sp (map normc s)) as (p & q & Hs & _).
  assert (Hin' : In c (map normc s)) by (rewrite Hs; apply in_or_app; right; apply in_or_app; left; exact Hin).
  apply in_map_iff in Hin' as (d & <- & _). unfold normc in *. destruct (blankb d) eqn:E; [reflexivity|congruence].
Qed.

Lemma collapse_trim s : collapse sp (trim is_sp (map normc s)) = unwords (words s).
Proof.
  unfold words at 1. rewrite <- (words_from_norm [] s). fold (words (map normc s)).
  rewrite <- words_trim. unfold words.
  symmetry. rewrite collapse_words; [reflexivity| apply norm_blanks | right |].
  - intros t Ht. apply trim_head in Ht. discriminate.
  - intros t Ht. apply trim_last in Ht. discriminate.
Qed.

(** The two backslash replacements. *)
Notation repA := (replace_go [sp; bsl] [bsl] 0).
Notation repB := (replace_go [bsl; sp] [bsl] 0).

Lemma repA_bb t : repA (sp :: bsl :: t) = repA (bsl :: t).
Proof.
  change (sp :: bsl :: t) with ([sp; bsl] ++ t). rewrite replace_go_match by discriminate.
  rewrite replace_go_nomatch by reflexivity. reflexivity.
Qed.
Lemma repA_x c t : (c <> sp \/ ~ hd_is bsl t) -> repA (c :: t) = c :: repA t.
Proof.
  intros H. apply replace_go_nomatch. cbn [has_prefix].
  destruct (Ascii.eqb_spec sp c) as [<-|_]; [|reflexivity].
  destruct H as [H|H]; [congruence|].
  destruct t as [|d t]; [reflexivity|].
  destruct (Ascii.eqb_spec bsl d) as [<-|_]; [|reflexivity].
  exfalso; apply H; eexists; reflexivity.
Qed.
Lemma repB_bs t : repB (bsl :: sp :: t) = bsl :: repB t.
Proof. change (bsl :: sp :: t) with ([bsl; sp] ++ t). rewrite replace_go_match by discriminate. reflexivity. Qed.
Lemma repB_x c t : (c <> bsl \/ ~ hd_is sp t) -> repB (c :: t) = c :: repB t.
Proof.
  intros H. apply replace_go_nomatch. cbn [has_prefix].
  destruct (Ascii.eqb_spec bsl c) as [<-|_]; [|reflexivity].
  destruct H as [H|H]; [congruence|].
  destruct t as [|d t]; [reflexivity|].
  destruct (Ascii.eqb_spec sp d) as [<-|_]; [|reflexivity].
  exfalso; apply H; eexists; reflexivity.
Qed.

Lemma drop_ns p c t : c <> sp ->
  drop_spaces_at_backslash p (c :: t) = c :: drop_spaces_at_backslash (Some c) t.
Proof. intros H. cbn. destruct (ascii_dec c sp); congruence. Qed.
Lemma drop_sp_after t :
  drop_spaces_at_backslash (Some bsl) (sp :: t) = drop_spaces_at_backslash (Some sp) t.
Proof. reflexivity. Qed.
Lemma drop_sp_before p t :
  drop_spaces_at_backslash p (sp :: bsl :: t) = drop_spaces_at_backslash (Some sp) (bsl :: t).
Proof.
  cbn. destruct p as [q|]; [|reflexivity]. rewrite orb_true_r. reflexivity.
Qed.
Lemma drop_sp_keep p t : p <> Some bsl -> ~ hd_is bsl t ->
  drop_spaces_at_backslash p (sp :: t) = sp :: drop_spaces_at_backslash (Some sp) t.
Proof.
  intros Hp Ht. simpl.
  assert ((match p with Some p0 => if ascii_dec p0 bsl then true else false | None => false end) = false) as ->.
  { destruct p as [q|]; [|reflexivity]. destruct (ascii_dec q bsl); congruence. }
  destruct t as [|d t]; [reflexivity|].
  destruct (ascii_dec d bsl) as [->|_]; [exfalso; apply Ht; eexists; reflexivity|]. reflexivity.
Qed.

Lemma hd_is_dec c t : hd_is c t \/ ~ hd_is c t.
Proof.
  destruct t as [|d t]; [right; intros [x Hx]; discriminate|].
  destruct (ascii_dec d c) as [->|H]; [left; eexists; reflexivity | right; intros [x Hx]; congruence].
Qed.

Lemma drop_replace s :
  (forall p, p <> Some bsl -> drop_spaces_at_backslash p s = repB (repA s)) /\
  bsl :: drop_spaces_at_backslash (Some bsl) s = repB (repA (bsl :: s)).
Proof.
  induction s as [|c t [IH1 IH2]].
  - split; [reflexivity|]. rewrite repA_x by (left; discriminate).
    rewrite repB_x by (right; intros [x Hx]; discriminate). reflexivity.
  - assert (H1 : forall p, p <> Some bsl -> drop_spaces_at_backslash p (c :: t) = repB (repA (c :: t))).
    { intros p Hp. destruct (ascii_dec c sp) as [->|Hc].
      - destruct (hd_is_dec bsl t) as [[t' ->]|Hb].
        + rewrite drop_sp_before, repA_bb. apply IH1; discriminate.
        + rewrite drop_sp_keep by assumption. rewrite repA_x by (right; exact Hb).
          rewrite repB_x by (left; discriminate). f_equal. apply IH1; discriminate.
      - rewrite drop_ns by assumption. destruct (ascii_dec c bsl) as [->|Hcb].
        + exact IH2.
        + rewrite repA_x by (left; exact Hc). rewrite repB_x by (left; exact Hcb).
          f_equal. apply IH1. congruence. }
    split; [exact H1|].
    destruct (ascii_dec c sp) as [->|Hc].
    + rewrite drop_sp_after. rewrite repA_x by (left; discriminate).
      destruct (hd_is_dec bsl t) as [[t' ->]|Hb].
      * rewrite repA_bb. rewrite repA_x by (left; discriminate).
        rewrite repB_x by (right; intros [x Hx]; discriminate).
        f_equal. rewrite <- repA_x by (left; discriminate). apply IH1; discriminate.
      * rewrite repA_x by (right; exact Hb). rewrite repB_bs. f_equal. apply IH1; discriminate.
    + rewrite repA_x by (left; discriminate).
      rewrite repB_x; [|right; rewrite repA_x by (left; exact Hc); intros [x Hx]; congruence].
      f_equal. rewrite <- H1 with (p := None) by discriminate. rewrite !drop_ns by assumption. reflexivity.
Qed.

Lemma rectified_correct s : whitespace_rectified s = rectified_spec s.
Proof.
  unfold whitespace_rectified, rectified_spec. rewrite replace_controls, remove_twins_collapse, collapse_trim.
  unfold replace_all at 1 2. cbn [beqb andb].
  change (Ascii.eqb bsl bsl) with true. change (Ascii.eqb sp bsl) with false. cbn [andb].
  symmetry. apply drop_replace. discriminate.
Qed.

(** Normal form. *)
Lemma occ_snoc_inv2 x y s c : occ [x; y] (c :: s) -> (c = x /\ hd_is y s) \/ occ [x; y] s.
Proof.
  intros (a & b & H). destruct a as [|z a].
  - simpl in H. injection H as -> ->. left. split; [reflexivity | eexists; reflexivity].
  - right. injection H as -> ->. exists a, b. reflexivity.
Qed.

Lemma collapse_hd c s : hd_is c (collapse c s) <-> hd_is c s.
Proof.
  induction s as [|x s IH]; [reflexivity|].
  destruct (ascii_dec x c) as [->|Hx].
  - destruct s as [|y s].
    + rewrite collapse_c1. reflexivity.
    + destruct (ascii_dec y c) as [->|Hy].
      * rewrite collapse_cc. split; [intros _; eexists; reflexivity | intros _; apply IH; eexists; reflexivity].
      * rewrite collapse_cx by assumption. split; intros _; eexists; reflexivity.
  - rewrite collapse_x by assumption. split; intros [t Ht]; congruence.
Qed.
Lemma collapse_no_twin c s : ~ occ [c; c] (collapse c s).
Proof.
  induction s as [|x s IH]; [apply occ_nil_r; discriminate|].
  destruct (ascii_dec x c) as [->|Hx].
  - destruct s as [|y s].
    + rewrite collapse_c1. intros H. apply occ_snoc_inv2 in H as [[_ [t Ht]]|H]; [discriminate|].
      revert H; apply occ_nil_r; discriminate.
    + destruct (ascii_dec y c) as [->|Hy].
      * rewrite collapse_cc. exact IH.
      * rewrite collapse_cx by assumption. intros H. apply occ_snoc_inv2 in H as [[_ H]|H]; [|exact (IH H)].
        apply (proj1 (collapse_hd _ _)) in H as [t Ht]; congruence.
  - rewrite collapse_x by assumption. intros H. apply occ_snoc_inv2 in H as [[H _]|H]; [congruence|exact (IH H)].
Qed.
Lemma collapse_in c s x : In x (collapse c s) -> In x s.
Proof.
  induction s as [|y s IH]; [exact (fun H => H)|].
  destruct (ascii_dec y c) as [->|Hy].
  - destruct s as [|z s]; [rewrite collapse_c1; exact (fun H => H)|].
    destruct (ascii_dec z c) as [->|Hz].
    + rewrite collapse_cc. intros H; right; apply IH, H.
    + rewrite collapse_cx by assumption. intros [H|H]; [left; exact H | right; apply IH, H].
  - rewrite collapse_x by assumption. intros [H|H]; [left; exact H | right; apply IH, H].
Qed.
Lemma collapse_last c s t x : x = c -> collapse c s = t ++ [x] -> exists u, s = u ++ [x].
Proof.
  intros Hxc. subst x. revert t; induction s as [|y s IH]; intros t H; [destruct t; discriminate|].
  assert (Hgo : forall t', collapse c s = t' ++ [c] -> exists u, y :: s = u ++ [c]).
  { intros t' H'. destruct (IH t' H') as [u ->]. exists (y :: u). reflexivity. }
  destruct (ascii_dec y c) as [->|Hy].
  - destruct s as [|z s]; [exists []; reflexivity|].
    destruct (ascii_dec z c) as [->|Hz].
    + rewrite collapse_cc in H. eapply Hgo, H.
    + rewrite collapse_cx in H by assumption. destruct t as [|a t].
      * rewrite collapse_x in H by assumption. discriminate.
      * injection H as -> H. eapply Hgo, H.
  - rewrite collapse_x in H by assumption. destruct t as [|a t]; [injection H as -> _; congruence|].
    injection H as -> H. eapply Hgo, H.
Qed.

Lemma drop_in p s x : In x (drop_spaces_at_backslash p s) -> In x s.
Proof.
  revert p; induction s as [|c s IH]; intros p; [exact (fun H => H)|].
  cbn. destruct (ascii_dec c sp).
  - destruct (_ || _); [intros H; right; eapply IH, H|].
    intros [H|H]; [left; exact H | right; eapply IH, H].
  - intros [H|H]; [left; exact H | right; eapply IH, H].
Qed.

(** First character produced by [drop]. *)
Lemma drop_hd p s c t : ~ occ [sp; sp] s -> drop_spaces_at_backslash p s = c :: t ->
  (exists u, s = c :: u) \/ (exists u, s = sp :: c :: u /\ c <> sp).
Proof.
  intros Hno H. destruct s as [|x s]; [discriminate|].
  destruct (ascii_dec x sp) as [->|Hx].
  - cbn in H. destruct (_ || _).
    + right. destruct s as [|y s]; [discriminate|].
      assert (y <> sp) by (intros ->; apply Hno; exists [], s; reflexivity).
      rewrite drop_ns in H by assumption. injection H as -> _. exists s; split; [reflexivity|assumption].
    + left. injection H as -> _. exists s; reflexivity.
  - rewrite drop_ns in H by assumption. injection H as -> _. left; exists s; reflexivity.
Qed.

Lemma drop_hd_after_bsl s c t : ~ occ [sp; sp] s -> drop_spaces_at_backslash (Some bsl) s = c :: t -> c <> sp.
Proof.
  intros Hno H. destruct s as [|x s]; [discriminate|].
  destruct (ascii_dec x sp) as [->|Hx].
  - rewrite drop_sp_after in H. destruct s as [|y s]; [discriminate|].
    assert (y <> sp) by (intros ->; apply Hno; exists [], s; reflexivity).
    rewrite drop_ns in H by assumption. congruence.
  - rewrite drop_ns in H by assumption. congruence.
Qed.

Lemma drop_adj p s x y :
  ~ occ [sp; sp] s -> (x = sp /\ y = sp) \/ (x = sp /\ y = bsl) \/ (x = bsl /\ y = sp) ->
  ~ occ [x; y] (drop_spaces_at_backslash p s).
Proof.
  intros Hno Hxy. revert p; induction s as [|c s IH]; intros p.
  - apply occ_nil_r; discriminate.
  - assert (Hno' : ~ occ [sp; sp] s) by (intros H; apply Hno, occ_cons, H). specialize (IH Hno').
    destruct (ascii_dec c sp) as [->|Hc].
    + destruct (hd_is_dec bsl s) as [[t ->]|Hb].
      * rewrite drop_sp_before. apply IH.
      * destruct p as [q|]; [destruct (ascii_dec q bsl) as [->|Hq]|].
        -- rewrite drop_sp_after. apply IH.
        -- rewrite drop_sp_keep by (congruence || assumption). intros H.
           apply occ_snoc_inv2 in H as [[<- [t Ht]]|H]; [|exact (IH _ H)].
           destruct s as [|d s]; [discriminate|].
           assert (d <> sp) by (intros ->; apply Hno; exists [], s; reflexivity).
           rewrite drop_ns in Ht by assumption. injection Ht as -> _.
           destruct Hxy as [[_ ->]|[[_ ->]|[? _]]]; [congruence| |discriminate].
           apply Hb; eexists; reflexivity.
        -- rewrite drop_sp_keep by (congruence || assumption). intros H.
           apply occ_snoc_inv2 in H as [[<- [t Ht]]|H]; [|exact (IH _ H)].
           destruct s as [|d s]; [discriminate|].
           assert (d <> sp) by (intros ->; apply Hno; exists [], s; reflexivity).
           rewrite drop_ns in Ht by assumption. injection Ht as -> _.
           destruct Hxy as [[_ ->]|[[_ ->]|[? _]]]; [congruence| |discriminate].
           apply Hb; eexists; reflexivity.
    + rewrite drop_ns by assumption. intros H.
      apply occ_snoc_inv2 in H as [[<- [t Ht]]|H]; [|exact (IH _ H)].
      destruct Hxy as [[? _]|[[? _]|[-> ->]]]; [congruence|congruence|].
      revert Ht. intros Ht. apply (drop_hd_after_bsl s sp t Hno' Ht). reflexivity.
Qed.

Lemma drop_last p s t x :
  ~ occ [sp; sp] s -> drop_spaces_at_backslash p s = t ++ [x] -> x = sp -> exists u, s = u ++ [sp].
Proof.
  intros Hno H Hx. subst x. revert p t Hno H; induction s as [|c s IH]; intros p t Hno H; [destruct t; discriminate|].
  assert (Hno' : ~ occ [sp; sp] s) by (intros Ho; apply Hno, occ_cons, Ho).
  assert (Hgo : forall p' t', drop_spaces_at_backslash p' s = t' ++ [sp] -> exists u, c :: s = u ++ [sp]).
  { intros p' t' H'. destruct (IH p' t' Hno' H') as [u ->]. exists (c :: u); reflexivity. }
  cbn in H. destruct (ascii_dec c sp) as [->|Hc].
  - destruct (_ || _) eqn:E; [eapply Hgo, H|].
    destruct t as [|a t].
    + injection H as H. destruct s as [|d s]; [exists []; reflexivity|].
      exfalso. cbn in H. assert (Hd : d <> sp) by (intros ->; apply Hno; exists [], s; reflexivity).
      destruct (ascii_dec d sp); congruence.
    + injection H as _ H. eapply Hgo, H.
  - destruct t as [|a t]; [injection H as -> _; congruence|].
    injection H as _ H. eapply Hgo, H.
Qed.

Lemma rectified_normal s : normal_form (whitespace_rectified s).
Proof.
  rewrite rectified_correct. unfold rectified_spec. rewrite <- collapse_trim.
  set (u := collapse sp (trim is_sp (map normc s))).
  assert (Hno : ~ occ [sp; sp] u) by apply collapse_no_twin.
  assert (Hin : forall c, In c u -> c <> cr /\ c <> lf /\ c <> tab).
  { intros c Hc. apply collapse_in in Hc.
    repeat split; intros ->; [pose proof (norm_blanks s cr Hc eq_refl) | pose proof (norm_blanks s lf Hc eq_refl)
      | pose proof (norm_blanks s tab Hc eq_refl)]; discriminate. }
  assert (Hh : ~ hd_is sp u).
  { intros H. apply (proj1 (collapse_hd _ _)) in H as [t Ht]. apply trim_head in Ht. discriminate. }
  assert (Hl : forall t, u <> t ++ [sp]).
  { intros t Ht. apply collapse_last in Ht as [v Hv]; [|reflexivity]. apply trim_last in Hv. discriminate. }
  split; [intros c Hc; apply Hin; eapply drop_in, Hc|].
  split; [|split].
  - intros t Ht. apply drop_hd in Ht as [[v Hv]|[v [Hv ?]]]; [|congruence|congruence].
    apply Hh; eexists; exact Hv.
  - intros t Ht. apply drop_last in Ht as [v Hv]; [|assumption|reflexivity]. exact (Hl _ Hv).
  - split; [|split]; apply drop_adj; tauto.
Qed.

Lemma normal_fixed u : normal_form u -> whitespace_rectified u = u.
Proof.
  intros (Hc & Hh & Hl & H1 & H2 & H3). unfold whitespace_rectified.
  rewrite replace_controls.
  assert (map normc u = u) as ->.
  { rewrite <- map_id. apply map_ext_in. intros c Hin. destruct (Hc c Hin) as (? & ? & ?).
    unfold normc, blankb. destruct (ascii_dec c sp); [congruence|]. destruct (ascii_dec c cr); [congruence|].
    destruct (ascii_dec c lf); [congruence|]. destruct (ascii_dec c tab); congruence. }
  rewrite trim_id.
  2:{ intros c t ->. unfold is_sp. destruct (Ascii.eqb_spec c sp) as [->|]; [|reflexivity]. exfalso; exact (Hh _ eq_refl). }
  2:{ intros c t ->. unfold is_sp. destruct (Ascii.eqb_spec c sp) as [->|]; [|reflexivity]. exfalso; exact (Hl _ eq_refl). }
  rewrite remove_twins_collapse, collapse_noocc by exact H1.
  unfold replace_all. cbn [beqb andb].
  change (Ascii.eqb bsl bsl) with true. change (Ascii.eqb sp bsl) with false. cbn [andb].
  rewrite (replace_go_noocc [sp; bsl]); [|discriminate|exact H2].
  apply replace_go_noocc; [discriminate|exact H3].
Qed.

(** Blank-free content. *)
Lemma words_nonblank cur s : Forall (fun c => blankb c = false) cur ->
  nonblank (List.concat (words_from cur s)) = rev cur ++ nonblank s.
Proof.
  intros Hf. assert (Hid : forall l, Forall (fun c => blankb c = false) l -> nonblank (rev l) = rev l).
  { intros l Hl. apply Forall_rev in Hl. induction Hl as [|c l' Hc _ IH]; [reflexivity|].
    simpl. rewrite Hc. simpl. congruence. }
  revert cur Hf; induction s as [|c s IH]; intros cur Hf; simpl.
  - destruct cur as [|x cur]; [reflexivity|].
    change (List.concat [rev (x :: cur)]) with (rev (x :: cur) ++ []). rewrite !app_nil_r. apply Hid, Hf.
  - destruct (blankb c) eqn:Hc; simpl.
    + destruct cur as [|x cur].
      * apply (IH [] (Forall_nil _)).
      * change (List.concat (rev (x :: cur) :: words_from [] s)) with (rev (x :: cur) ++ List.concat (words_from [] s)).
        unfold nonblank in *. rewrite filter_app. rewrite (Hid _ Hf).
        rewrite (IH [] (Forall_nil _)). reflexivity.
    + rewrite (IH (c :: cur)) by (constructor; assumption). simpl. rewrite <- app_assoc. reflexivity.
Qed.
Lemma drop_nonblank p s : nonblank (drop_spaces_at_backslash p s) = nonblank s.
Proof.
  revert p; induction s as [|c s IH]; intros p; [reflexivity|]. cbn.
  destruct (ascii_dec c sp) as [->|Hc].
  - destruct (_ || _); simpl; apply IH.
  - simpl. destruct (negb (blankb c)); rewrite IH; reflexivity.
Qed.
Lemma unwords_nonblank l : nonblank (unwords l) = nonblank (List.concat l).
Proof.
  induction l as [|w l IH]; [reflexivity|]. destruct l as [|w' l].
  - simpl. rewrite app_nil_r. reflexivity.
  - change (unwords (w :: w' :: l)) with (w ++ sp :: unwords (w' :: l)).
    change (List.concat (w :: w' :: l)) with (w ++ List.concat (w' :: l)).
    unfold nonblank in *. rewrite !filter_app. f_equal. exact IH.
Qed.
Lemma rectified_nonblank s : nonblank (whitespace_rectified s) = nonblank s.
Proof.
  rewrite rectified_correct. unfold rectified_spec. rewrite drop_nonblank, unwords_nonblank.
  unfold words. rewrite words_nonblank by constructor. reflexivity.
Qed.
