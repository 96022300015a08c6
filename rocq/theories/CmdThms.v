(** Proofs about the command *)
From Verif Require Import GoStr GoStrFacts Path PathSpec PathFacts Cmd.
Require Import Lia.

Lemma rev_not_nil {A} (l : list A) : l <> [] -> rev l <> [].
Proof. intros H E. apply H. rewrite <- (rev_involutive l), E. reflexivity. Qed.
Lemma trim_left_first (e r : bytes) : noslash e -> e <> [] -> trim_left is_slash (rev e ++ r) = rev e ++ r.
Proof.
  intros N H. pose proof (rev_not_nil e H) as R. apply Forall_rev in N. destruct (rev e) as [|c l]; [congruence|].
  inversion N as [|? ? C _]; subst. cbn. rewrite C. reflexivity.
Qed.
Lemma after_slash_end e : noslash e -> forall acc, after_slash_rev (rev e) acc = ([], e ++ acc).
Proof.
  intro N. induction e as [|c e IH] using rev_ind; intro acc; [reflexivity|].
  apply Forall_app in N. destruct N as [N C]. rewrite rev_app_distr. cbn [rev app after_slash_rev].
  inversion C as [|? ? C1 _]; subst. rewrite C1, IH by exact N. rewrite <- app_assoc. reflexivity.
Qed.
Lemma after_slash_app e : noslash e -> forall r acc, after_slash_rev (rev e ++ slash :: r) acc = (slash :: r, e ++ acc).
Proof.
  intro N. induction e as [|c e IH] using rev_ind; intros r acc; [reflexivity|].
  apply Forall_app in N. destruct N as [N C]. rewrite rev_app_distr. cbn [rev app].
  cbn [after_slash_rev]. inversion C as [|? ? C1 _]; subst. rewrite C1, IH by exact N. rewrite <- app_assoc. reflexivity.
Qed.
Lemma base_is d e : dir_part d -> name e -> base (d ++ e) = e.
Proof.
  intros D Ne. assert (N := name_noslash e Ne). assert (Nn := name_ne e Ne).
  assert (X : snd (after_slash_rev (trim_left is_slash (rev (d ++ e))) []) = e).
  { rewrite rev_app_distr, trim_left_first by assumption. destruct D as [->|(d' & ->)].
    - cbn [rev app]. rewrite app_nil_r, after_slash_end by exact N. cbn. apply app_nil_r.
    - rewrite rev_app_distr. cbn [rev app]. change "/"%char with slash. rewrite after_slash_app by exact N. cbn. apply app_nil_r. }
  unfold base. destruct (d ++ e) eqn:E; [apply app_eq_nil in E; tauto|]. rewrite X. destruct e; [congruence|reflexivity].
Qed.
(** The extension of a name: what follows the last dot, with the dot *)
Lemma ext_split tail : (tail = [] \/ exists r, tail = slash :: r) -> forall e acc, noslash e ->
  (ext_rev (rev e ++ tail) acc = [] /\ ~ In dot e) \/
  exists stem suf, e = stem ++ dot :: suf /\ ~ In dot suf /\ ext_rev (rev e ++ tail) acc = dot :: suf ++ acc.
Proof.
  intros T e. induction e as [|c e IH] using rev_ind; intros acc N.
  - left. split; [|intros []]. destruct T as [->|(r & ->)]; reflexivity.
  - apply Forall_app in N. destruct N as [N C]. inversion C as [|? ? C1 _]; subst.
    rewrite rev_app_distr. cbn [rev app ext_rev]. rewrite C1. destruct (Ascii.eqb c dot) eqn:D.
    + apply Ascii.eqb_eq in D. subst c. right. exists e, []. repeat split. intros [].
    + destruct (IH (c :: acc) N) as [[E I]|(stem & suf & -> & I & E)].
      * left. split; [exact E|]. intro H. apply in_app_or in H. destruct H as [H|[H|[]]]; [exact (I H)|]. subst. discriminate.
      * right. exists stem, (suf ++ [c]). split; [rewrite <- app_assoc; reflexivity|]. split.
        -- intro H. apply in_app_or in H. destruct H as [H|[H|[]]]; [exact (I H)|]. subst. discriminate.
        -- rewrite E, <- app_assoc. reflexivity.
Qed.
Lemma ext_is d e : dir_part d -> name e ->
  (ext (d ++ e) = [] /\ ~ In dot e) \/ exists stem suf, e = stem ++ dot :: suf /\ ~ In dot suf /\ ext (d ++ e) = dot :: suf.
Proof.
  intros D Ne. unfold ext. rewrite rev_app_distr.
  assert (T : rev d = [] \/ exists r, rev d = slash :: r).
  { destruct D as [->|(d' & ->)]; [left; reflexivity|right]. rewrite rev_app_distr. eexists. reflexivity. }
  destruct (ext_split (rev d) T e [] (name_noslash e Ne)) as [H|(stem & suf & H1 & H2 & H3)]; [left; exact H|right].
  exists stem, suf. rewrite app_nil_r in H3. auto.
Qed.
Lemma has_prefix_app p s : has_prefix p (p ++ s) = true.
Proof. induction p as [|c p IH]; [reflexivity|]. cbn. rewrite Ascii.eqb_refl. exact IH. Qed.
Lemma trim_suffix_app a b : trim_suffix (a ++ b) b = a.
Proof.
  unfold trim_suffix, has_suffix. rewrite rev_app_distr, has_prefix_app, app_length.
  replace (List.length a + List.length b - List.length b)%nat with (List.length a) by lia.
  rewrite firstn_app, Nat.sub_diag, firstn_all. cbn. apply app_nil_r.
Qed.
Lemma trim_suffix_nil a : trim_suffix a [] = a.
Proof. rewrite <- (app_nil_r a) at 1. apply trim_suffix_app. Qed.

Theorem default_output_is d e : dir_part d -> name e ->
  (~ In "."%char e /\ default_output (d ++ e) = e ++ $".pdf") \/
  exists stem suf, e = stem ++ "."%char :: suf /\ ~ In "."%char suf /\ default_output (d ++ e) = stem ++ $".pdf".
Proof.
  intros D Ne. unfold default_output. rewrite base_is by assumption.
  destruct (ext_is d e D Ne) as [[E I]|(stem & suf & -> & I & E)].
  - left. split; [exact I|]. rewrite E, trim_suffix_nil. reflexivity.
  - right. exists stem, suf. split; [reflexivity|]. split; [exact I|]. rewrite E, trim_suffix_app. reflexivity.
Qed.
Lemma ends_inj (a b : bytes) x y : a ++ x = b ++ y -> List.length x = List.length y -> a = b /\ x = y.
Proof.
  revert b. induction a as [|c a IH]; intros [|c' b] H L; cbn in *.
  - auto.
  - subst x. cbn in L. rewrite app_length in L. lia.
  - subst y. cbn in L. rewrite app_length in L. lia.
  - injection H as -> H. destruct (IH b H L) as [-> ->]. auto.
Qed.
Lemma pdf_name stem : noslash stem -> name (stem ++ $".pdf").
Proof.
  intro N. assert (L : (4 <= List.length (stem ++ $".pdf"))%nat) by (rewrite app_length; cbn; lia).
  split; [|split; [|split]]; [intro H; rewrite H in L; cbn in L; lia ..|].
  apply noslash_in. apply Forall_app. split; [exact N|]. repeat constructor.
Qed.
Lemma noslash_left a b : noslash (a ++ b) -> noslash a.
Proof. intro H. apply Forall_app in H. tauto. Qed.
Lemma output_name d e : dir_part d -> name e -> name (default_output (d ++ e)).
Proof.
  intros D Ne. destruct (default_output_is d e D Ne) as [[_ ->]|(stem & suf & E & _ & ->)]; apply pdf_name.
  - apply name_noslash, Ne.
  - apply name_noslash in Ne. rewrite E in Ne. exact (noslash_left _ _ Ne).
Qed.
Lemma goto_trailing p dd : goto dd (elements (p ++ [slash])) = goto dd (elements p).
Proof.
  assert (E : elements (p ++ [slash]) = elements p ++ [[]]).
  { induction p as [|c p IH]; [reflexivity|]. cbn [app]. destruct (is_slash c) eqn:C.
    - apply Ascii.eqb_eq in C. subst c. rewrite !elements_slash, IH. reflexivity.
    - rewrite !elements_cons by exact C. rewrite IH. pose proof (elements_ne p) as N. destruct (elements p); [congruence|reflexivity]. }
  rewrite E, goto_app. reflexivity.
Qed.
Lemma leads_name cwd e : name e -> leads cwd e = cwd ++ [e].
Proof.
  intro Ne. assert (N := name_noslash e Ne). rewrite leads_rel.
  - rewrite <- (app_nil_r e) at 1. rewrite elements_app by (try exact N; reflexivity). apply (goto_names [e]). constructor; [exact Ne|constructor].
  - destruct e as [|c e]; [reflexivity|]. inversion N; assumption.
Qed.
Lemma leads_dir_name cwd d e : dir_part d -> name e -> leads cwd (d ++ e) = leads cwd d ++ [e].
Proof.
  intros [->|(d' & ->)] Ne; [apply leads_name, Ne|].
  rewrite <- app_assoc. change (d' ++ ["/"%char] ++ e) with (d' ++ slash :: e).
  destruct d' as [|c d'].
  - cbn [app]. rewrite leads_abs by reflexivity. rewrite elements_slash. cbn [goto].
    rewrite <- (app_nil_r e) at 1. rewrite elements_app by (try reflexivity; apply name_noslash, Ne).
    apply (goto_names [e]). constructor; [exact Ne|constructor].
  - assert (A : is_abs e = false) by (apply name_noslash in Ne; destruct e as [|c0 e]; [reflexivity|]; inversion Ne; assumption).
    rewrite leads_app by (try discriminate; exact A). rewrite leads_name by exact Ne. f_equal.
    change "/"%char with slash. destruct (is_abs (c :: d')) eqn:B.
    + rewrite !leads_abs by exact B. symmetry. apply goto_trailing.
    + rewrite !leads_rel by exact B. symmetry. apply goto_trailing.
Qed.

Theorem output_is_input cwd d e : dir_part d -> name e ->
  leads cwd (default_output (d ++ e)) = leads cwd (d ++ e) <-> leads cwd d = cwd /\ exists stem, e = stem ++ $".pdf".
Proof.
  intros D Ne. rewrite leads_dir_name by assumption. rewrite leads_name by (apply output_name; assumption).
  split.
  - intro H. apply app_inj_tail in H. destruct H as [<- H]. split; [reflexivity|].
    destruct (default_output_is d e D Ne) as [[_ X]|(stem & suf & -> & I & X)]; rewrite X in H; [|exists stem; symmetry; exact H].
    exists e. symmetry. exact H.
  - intros [-> (stem & ->)]. f_equal. f_equal.
    destruct (default_output_is d _ D Ne) as [[I X]|(stem' & suf & E & I & X)].
    + exfalso. apply I. apply in_or_app. right. left. reflexivity.
    + rewrite X. f_equal. clear X. assert (S : suf = $"pdf").
      { change ($".pdf") with ("."%char :: $"pdf") in E.
        assert (G : forall (a b x y : bytes), a ++ "."%char :: x = b ++ "."%char :: y -> ~ In "."%char x -> ~ In "."%char y -> x = y).
        { clear. intros a. induction a as [|c a IH]; intros [|c' b] x y H X Y; cbn in H.
          - congruence.
          - injection H as <- ->. exfalso. apply X. apply in_or_app. right. left. reflexivity.
          - injection H as -> <-. exfalso. apply Y. apply in_or_app. right. left. reflexivity.
          - injection H as -> H. apply (IH b x y H X Y). }
        symmetry. apply (G stem stem' _ _ E); [|exact I]. cbn. intros [H|[H|[H|[]]]]; discriminate H. }
      subst suf. apply ends_inj in E; [symmetry; apply E|reflexivity].
Qed.

Section Main.
Context {Doc Fonts Eng : Type} (load : Files -> bytes -> option Doc) (can_create : Files -> bytes -> bool)
  (load_fonts : Files -> bytes -> option Fonts) (new_engine : Files -> Fonts -> Doc -> option Eng)
  (process : Files -> Eng -> Doc -> bytes * bool) (cwd : list bytes).
Local Notation main := (main load can_create load_fonts new_engine process cwd).
Lemma put_other at_ c fs l : l <> at_ -> put at_ c fs l = fs l.
Proof. intro H. unfold put. match goal with |- context [if ?b then _ else _] => destruct b end; [congruence|reflexivity]. Qed.
Lemma put_same at_ c fs : put at_ c fs at_ = Some c.
Proof. unfold put. match goal with |- context [if ?b then _ else _] => destruct b end; [reflexivity|congruence]. Qed.
Theorem main_others args fs code fs' l : main args fs = (code, fs') -> l <> leads cwd (output_of args) -> fs' l = fs l.
Proof.
  intros M N. unfold Cmd.main in M. destruct (load fs _); [|congruence]. destruct (can_create _ _); [|congruence].
  destruct (load_fonts _ _); [|apply pair_equal_spec in M; destruct M as [_ <-]; apply put_other, N].
  destruct (new_engine _ _ _); [|apply pair_equal_spec in M; destruct M as [_ <-]; apply put_other, N].
  destruct (process _ _ _) as [out good]. apply pair_equal_spec in M. destruct M as [_ <-]. rewrite !put_other by exact N. reflexivity.
Qed.
Theorem main_untouched args fs : load fs (input_of args) = None \/ can_create fs (output_of args) = false ->
  main args fs = (2, fs).
Proof.
  unfold Cmd.main. intros [->|H]; [reflexivity|]. destruct (load _ _); [|reflexivity]. rewrite H. reflexivity.
Qed.
Theorem main_success args fs fs' : main args fs = (0, fs') -> exists doc fonts eng out,
  load fs (input_of args) = Some doc /\ can_create fs (output_of args) = true /\
  let fs1 := put (leads cwd (output_of args)) [] fs in
  load_fonts fs1 ($"fonts/fontdef.toml") = Some fonts /\ new_engine fs1 fonts doc = Some eng /\
  process fs1 eng doc = (out, true) /\ fs' (leads cwd (output_of args)) = Some out.
Proof.
  intro M. unfold Cmd.main in M. cbv zeta. destruct (load fs _) as [doc|]; [|discriminate]. destruct (can_create _ _); [|discriminate].
  destruct (load_fonts _ _) as [fonts|]; [|discriminate]. destruct (new_engine _ _ _) as [eng|] eqn:E; [|discriminate].
  destruct (process _ _ _) as [out good] eqn:P. apply pair_equal_spec in M. destruct M as [G <-]. destruct good; [|discriminate].
  exists doc, fonts, eng, out. repeat split; try assumption. apply put_same.
Qed.
Theorem main_code args fs : In (fst (main args fs)) [0; 2; 3; 4].
Proof.
  unfold Cmd.main. destruct (load _ _); [|cbn; tauto]. destruct (can_create _ _); [|cbn; tauto].
  destruct (load_fonts _ _); [|cbn; tauto]. destruct (new_engine _ _ _); [|cbn; tauto].
  destruct (process _ _ _) as [o []]; cbn; tauto.
Qed.
Theorem main_failed args fs code fs' : main args fs = (code, fs') -> code <> 0 ->
  fs' = fs \/ code <> 4 /\ fs' (leads cwd (output_of args)) = Some [] \/
  code = 4 /\ exists doc fonts eng, let fs1 := put (leads cwd (output_of args)) [] fs in
    exists out, process fs1 eng doc = (out, false) /\ load fs (input_of args) = Some doc /\ load_fonts fs1 ($"fonts/fontdef.toml") = Some fonts /\
    new_engine fs1 fonts doc = Some eng /\ fs' (leads cwd (output_of args)) = Some out.
Proof.
  intros M C. unfold Cmd.main in M. destruct (load fs _) as [doc|] eqn:L; [|left; congruence]. destruct (can_create _ _); [|left; congruence].
  destruct (load_fonts _ _) as [fonts|] eqn:Fo.
  2:{ right; left. apply pair_equal_spec in M. destruct M as [<- <-]. split; [discriminate|apply put_same]. }
  destruct (new_engine _ _ _) as [eng|] eqn:E.
  2:{ right; left. apply pair_equal_spec in M. destruct M as [<- <-]. split; [discriminate|apply put_same]. }
  destruct (process _ _ _) as [out good] eqn:P. apply pair_equal_spec in M. destruct M as [<- <-]. destruct good; [congruence|].
  right; right. split; [reflexivity|]. exists doc, fonts, eng. cbv zeta. exists out. repeat split; try assumption. apply put_same.
Qed.
End Main.
