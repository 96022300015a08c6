(** Proofs about class sheets and the cascade. *)
From Coq Require Import Permutation Lia.
From Verif Require Import GoStr GoStrFacts Utf8 Utf8Facts Scan Style StyleSpec ScanFacts StyleFacts Class ClassSpec ClassView.

Lemma slice_drop {A} (pre rest : list A) : slice (pre ++ rest) (List.length pre) (List.length (pre ++ rest)) = Some rest.
Proof.
  unfold slice. rewrite app_length.
  replace (List.length pre <=? List.length pre + List.length rest) with true by (symmetry; apply Nat.leb_le; lia).
  rewrite Nat.leb_refl. cbn [andb]. rewrite skipn_app, skipn_all, Nat.sub_diag. cbn [app skipn].
  replace (List.length pre + List.length rest - List.length pre) with (List.length rest) by lia. rewrite firstn_all. reflexivity.
Qed.
Lemma slice_take {A} (a b : list A) : slice (a ++ b) 0 (List.length a) = Some a.
Proof.
  unfold slice. rewrite app_length. replace (List.length a <=? _) with true by (symmetry; apply Nat.leb_le; lia).
  cbn [Nat.leb andb skipn]. rewrite Nat.sub_0_r, firstn_app, Nat.sub_diag, firstn_all. cbn. rewrite app_nil_r. reflexivity.
Qed.
Lemma slice_mid {A} (a b c : list A) : slice (a ++ b ++ c) (List.length a) (List.length a + List.length b) = Some b.
Proof.
  unfold slice. rewrite !app_length.
  replace (_ <=? _) with true by (symmetry; apply Nat.leb_le; lia).
  replace (_ <=? _) with true by (symmetry; apply Nat.leb_le; lia). cbn [andb].
  rewrite skipn_app, skipn_all, Nat.sub_diag. cbn [app skipn].
  replace (List.length a + List.length b - List.length a) with (List.length b) by lia.
  rewrite firstn_app, Nat.sub_diag, firstn_all. cbn. rewrite app_nil_r. reflexivity.
Qed.

Lemma index_split c s i : index_byte c s = Some i -> exists a b, s = a ++ c :: b /\ ~ In c a /\ List.length a = i.
Proof.
  revert i; induction s as [|x s IH]; intros i H; cbn in H; [discriminate|].
  destruct (Ascii.eqb_spec x c) as [->|Hx].
  - injection H as <-. exists [], s. repeat split. intros [].
  - destruct (index_byte c s) as [k|]; [|discriminate]. injection H as <-.
    destruct (IH k eq_refl) as (a & b & -> & Ha & Hl). exists (x :: a), b. split; [reflexivity|].
    split; [intros [E|E]; [exact (Hx E)|exact (Ha E)]|cbn; lia].
Qed.
Lemma no_in_split {A} (c : A) a b a' b' : a ++ c :: b = a' ++ c :: b' -> ~ In c a -> ~ In c a' -> a = a' /\ b = b'.
Proof.
  revert a'; induction a as [|x a IH]; intros [|y a'] E Ha Ha'; cbn in E; injection E.
  - auto.
  - intros _ <-. exfalso. apply Ha'. left; reflexivity.
  - intros _ <-. exfalso. apply Ha. left; reflexivity.
  - intros E' <-. destruct (IH a' E') as [-> ->]; [intros H; apply Ha; right; exact H|intros H; apply Ha'; right; exact H|auto].
Qed.

Lemma blank_controls_eq s : blank_controls s = no_controls s.
Proof.
  unfold blank_controls, no_controls. rewrite !replace_all_char by discriminate. rewrite !map_map. apply map_ext. intros c.
  destruct (Ascii.eqb c cr) eqn:E1; [reflexivity|]. destruct (Ascii.eqb c lf) eqn:E2; [reflexivity|].
  destruct (Ascii.eqb c tab) eqn:E3; reflexivity.
Qed.

Section S.
Variable F : Type.
Variables parse_float convert_float : bytes -> option F.
Notation decode_mutator := (decode_mutator F parse_float convert_float).
Notation decode_classes_go := (decode_classes_go F parse_float convert_float).
Notation decode_classes := (decode_classes F parse_float convert_float).

Notation decoded := (decoded parse_float convert_float).
Notation decodable := (decodable parse_float convert_float).
Notation sheet_map := (sheet_map parse_float convert_float).

Lemma decodable_any b sh : (forall l, Permutation (sh l) l) -> decodable b -> exists m, decode_mutator sh b = Some m.
Proof.
  intros H (m & sh' & H' & E). pose proof (decode_order F parse_float convert_float b sh' sh H' H) as D.
  rewrite E in D. destruct (decode_mutator sh b) as [m'|]; [exists m'; reflexivity|contradiction].
Qed.

Section Loop.
Variable shuffle : nat -> rawmap -> rawmap.
Hypothesis Hsh : forall n l, Permutation (shuffle n l) l.

Lemma go_unfold fuel pre rest cs :
  decode_classes_go shuffle (S fuel) (pre ++ rest) (List.length pre) cs =
  match index_byte "{"%char rest with
  | None => COk cs
  | Some i =>
    let head := firstn i rest in let after := skipn (S i) rest in
    match trim is_ws head with
    | [] => CErr
    | _ => match index_byte "}"%char after with
      | None => CErr
      | Some k => match decode_mutator (shuffle (List.length pre)) (firstn k after) with
        | None => CErr
        | Some m => match add_rule F (trim is_ws head) m cs with
          | None => CErr
          | Some cs' => decode_classes_go shuffle fuel (pre ++ rest) (List.length pre + (i + k + 2)) cs'
          end end end end end.
Proof.
  cbn [Class.decode_classes_go]. rewrite slice_drop.
  destruct (index_byte "{" rest) as [i|] eqn:Ei; [|reflexivity].
  apply index_split in Ei as (a & b & -> & Ha & <-).
  rewrite slice_take. rewrite slice_drop.
  rewrite firstn_app, Nat.sub_diag, firstn_all. cbn [firstn]. rewrite app_nil_r.
  replace (skipn (S (List.length a)) (a ++ "{"%char :: b)) with b
    by (rewrite skipn_app, skipn_all2 by lia; replace (S (List.length a) - List.length a) with 1 by lia; reflexivity).
  cbv zeta. destruct (trim is_ws a) as [|c t] eqn:Et; [reflexivity|].
  cbn [index_byte]. change (Ascii.eqb "{" "}") with false. cbv iota.
  destruct (index_byte "}" b) as [k|] eqn:Ek; [|reflexivity].
  apply index_split in Ek as (b1 & b2 & -> & Hb & <-).
  replace (slice (a ++ "{"%char :: b1 ++ "}"%char :: b2) (List.length a + 1) (S (List.length b1) + List.length a)) with (Some b1).
  2:{ symmetry. replace (a ++ "{"%char :: b1 ++ "}"%char :: b2) with ((a ++ ["{"%char]) ++ b1 ++ "}"%char :: b2)
        by (rewrite <- app_assoc; reflexivity).
      replace (List.length a + 1) with (List.length (a ++ ["{"%char])) by (rewrite app_length; reflexivity).
      replace (S (List.length b1) + List.length a) with (List.length (a ++ ["{"%char]) + List.length b1) by (rewrite app_length; cbn; lia).
      apply slice_mid. }
  rewrite firstn_app, Nat.sub_diag, firstn_all. cbn [firstn]. rewrite app_nil_r.
  destruct (decode_mutator (shuffle (List.length pre)) b1) as [m|]; [|reflexivity].
  destruct (add_rule F (c :: t) m cs) as [cs'|]; [|reflexivity].
  f_equal. lia.
Qed.

Lemma go_total n : forall pre rest cs fuel, List.length rest < n -> List.length rest < fuel ->
  decode_classes_go shuffle fuel (pre ++ rest) (List.length pre) cs <> CPanic /\
  decode_classes_go shuffle fuel (pre ++ rest) (List.length pre) cs <> CFuel.
Proof.
  induction n as [|n IH]; intros pre rest cs fuel Hn Hf; [lia|]. destruct fuel as [|fuel]; [lia|].
  rewrite go_unfold. destruct (index_byte "{" rest) as [i|] eqn:Ei; [|split; discriminate].
  apply index_split in Ei as (a & b & -> & Ha & <-). cbv zeta.
  replace (skipn (S (List.length a)) (a ++ "{"%char :: b)) with b
    by (rewrite skipn_app, skipn_all2 by lia; replace (S (List.length a) - List.length a) with 1 by lia; reflexivity).
  destruct (trim is_ws _) as [|c t]; [split; discriminate|].
  destruct (index_byte "}" b) as [k|] eqn:Ek; [|split; discriminate].
  apply index_split in Ek as (b1 & b2 & -> & Hb & <-).
  destruct (decode_mutator _ _) as [m|]; [|split; discriminate].
  destruct (add_rule F _ _ _) as [cs'|]; [|split; discriminate].
  replace (pre ++ a ++ "{"%char :: b1 ++ "}"%char :: b2) with ((pre ++ a ++ "{"%char :: b1 ++ ["}"%char]) ++ b2)
    by (rewrite <- !app_assoc; cbn; rewrite <- app_assoc; reflexivity).
  replace (List.length pre + (List.length a + List.length b1 + 2)) with (List.length (pre ++ a ++ "{"%char :: b1 ++ ["}"%char]))
    by (rewrite !app_length; cbn; rewrite app_length; cbn; lia).
  rewrite !app_length in Hn, Hf. cbn in Hn, Hf. rewrite !app_length in Hn, Hf. cbn in Hn, Hf.
  apply IH; lia.
Qed.

(** *** Rules *)
Lemma add_rule_base name m cs cls : head_reads name cls None -> add_rule F (trim is_ws name) m cs = Some (map_set cls (mkClass m []) cs).
Proof.
  intros (Hne & -> & H). unfold add_rule. destruct (index_byte colon (trim is_ws name)) as [[|i]|] eqn:E; [reflexivity| |reflexivity].
  exfalso. apply index_split in E as (a & b & E & Ha & Hl). destruct H as [H|[t Ht]].
  - apply H. rewrite E. apply in_or_app. right. left. reflexivity.
  - rewrite Ht in E. destruct a as [|x a]; [discriminate|]. injection E as <- _. apply Ha. left. reflexivity.
Qed.
Lemma add_rule_sel name m cs cls s : head_reads name cls (Some s) ->
  add_rule F (trim is_ws name) m cs =
  match map_get cls cs with
  | Some cl => Some (map_set cls (mkClass (cl_mutator cl) (map_set s m (cl_selectors cl))) cs)
  | None => None
  end.
Proof.
  intros (Hne & Hc & Hn & H). change ":"%char with colon in *. unfold add_rule. rewrite H.
  rewrite index_byte_app by exact Hn. destruct cls as [|x cls]; [congruence|]. cbn [List.length].
  replace (firstn (S (List.length cls)) ((x :: cls) ++ colon :: s)) with (x :: cls)
    by (change (S (List.length cls)) with (List.length (x :: cls)); rewrite firstn_app, Nat.sub_diag, firstn_all; cbn; rewrite app_nil_r; reflexivity).
  replace (skipn (S (S (List.length cls))) ((x :: cls) ++ colon :: s)) with s; [reflexivity|].
  change (S (List.length cls)) with (List.length (x :: cls)).
  rewrite skipn_app, skipn_all2 by lia. replace (S (List.length (x :: cls)) - List.length (x :: cls)) with 1 by lia. reflexivity.
Qed.
Lemma head_reads_total name : trim is_ws name <> [] -> exists cls sel, head_reads name cls sel.
Proof.
  intros Hne. destruct (index_byte colon (trim is_ws name)) as [[|i]|] eqn:E.
  - exists (trim is_ws name), None. split; [exact Hne|]. split; [reflexivity|]. right.
    apply index_split in E as (a & b & E & _ & Hl). destruct a; [|discriminate]. exists b. exact E.
  - apply index_split in E as (a & b & E & Ha & Hl). exists a, (Some b). split; [exact Hne|].
    split; [destruct a; [discriminate|discriminate]|]. split; assumption.
  - exists (trim is_ws name), None. split; [exact Hne|]. split; [reflexivity|]. left. apply index_byte_none, E.
Qed.

Lemma find_last_snoc f l r : find_last f (l ++ [r]) =
  if f r then Some (r, []) else match find_last f l with Some (x, after) => Some (x, after ++ [r]) | None => None end.
Proof.
  induction l as [|x l IH]; cbn [app find_last]; [destruct (f r); reflexivity|]. rewrite IH.
  destruct (f r); [reflexivity|]. destruct (find_last f l) as [[y aft]|]; [reflexivity|]. destruct (f x); reflexivity.
Qed.
Lemma find_last_none f l : find_last f l = None <-> existsb f l = false.
Proof.
  induction l as [|x l IH]; cbn; [tauto|]. destruct (find_last f l) as [y|].
  - split; [discriminate|]. intros H. apply orb_false_iff in H as [_ H]. apply IH in H. discriminate.
  - destruct (f x); cbn; [split; discriminate|]. tauto.
Qed.

Lemma sheet_map_nil : sheet_map [] [].
Proof. intros n. reflexivity. Qed.

Lemma is_base_other n cls sel b : n <> cls -> is_base n (mkRule cls sel b) = false.
Proof. intros H. unfold is_base. cbn. destruct (beqb_spec cls n); [congruence|reflexivity]. Qed.
Lemma is_sel_other n s cls sel b : n <> cls -> is_sel n s (mkRule cls sel b) = false.
Proof. intros H. unfold is_sel. cbn. destruct (beqb_spec cls n); [congruence|reflexivity]. Qed.

Lemma sheet_map_base l cs cls b m : sheet_map l cs -> decoded b m ->
  sheet_map (l ++ [mkRule cls None b]) (map_set cls (mkClass m []) cs).
Proof.
  intros H Hm n. unfold class_rule, selector_rule. rewrite find_last_snoc, map_get_set.
  destruct (beqb_spec cls n) as [<-|Hn].
  - assert (E : is_base cls (mkRule cls None b) = true) by (unfold is_base; cbn; rewrite beqb_refl; reflexivity).
    rewrite E. cbn [option_map fst r_body]. exists (mkClass m []). split; [reflexivity|]. split; [exact Hm|].
    intros s. reflexivity.
  - rewrite is_base_other by congruence. specialize (H n). unfold class_rule, selector_rule in H.
    destruct (find_last (is_base n) l) as [[r aft]|]; cbn [option_map fst] in *; [|exact H].
    destruct H as (cl & Hg & Hd & Hs). exists cl. split; [exact Hg|]. split; [exact Hd|].
    intros s. specialize (Hs s). rewrite find_last_snoc, is_sel_other by congruence.
    destruct (find_last (is_sel n s) aft) as [[r' aft']|]; exact Hs.
Qed.
Lemma sheet_map_sel l cs cls s b m cl : sheet_map l cs -> decoded b m -> map_get cls cs = Some cl ->
  sheet_map (l ++ [mkRule cls (Some s) b]) (map_set cls (mkClass (cl_mutator cl) (map_set s m (cl_selectors cl))) cs).
Proof.
  intros H Hm Hcl n. unfold class_rule, selector_rule. rewrite find_last_snoc, map_get_set.
  assert (E : is_base n (mkRule cls (Some s) b) = false) by (unfold is_base; cbn; apply andb_false_r). rewrite E.
  specialize (H n). unfold class_rule, selector_rule in H.
  destruct (find_last (is_base n) l) as [[r aft]|] eqn:Ef; cbn [option_map fst] in *.
  - destruct H as (cl' & Hg & Hd & Hs). destruct (beqb_spec cls n) as [<-|Hn].
    + assert (cl' = cl) as -> by congruence.
      exists (mkClass (cl_mutator cl) (map_set s m (cl_selectors cl))). split; [reflexivity|]. split; [exact Hd|].
      intros t. specialize (Hs t). cbn [cl_selectors]. rewrite find_last_snoc, map_get_set. unfold is_sel at 1. cbn [r_class r_sel].
      rewrite beqb_refl. cbn [andb]. destruct (beqb s t).
      * cbn [option_map fst r_body]. exists m. split; [reflexivity|exact Hm].
      * destruct (find_last (is_sel cls t) aft) as [[r' aft']|]; exact Hs.
    + exists cl'. split; [exact Hg|]. split; [exact Hd|].
      intros t. specialize (Hs t). rewrite find_last_snoc, is_sel_other by congruence.
      destruct (find_last (is_sel n t) aft) as [[r' aft']|]; exact Hs.
  - destruct (beqb_spec cls n) as [<-|Hn]; [|exact H]. congruence.
Qed.
Lemma sheet_map_has l cs n : sheet_map l cs -> (existsb (is_base n) l = true <-> map_get n cs <> None).
Proof.
  intros H. specialize (H n). unfold class_rule in H. pose proof (find_last_none (is_base n) l) as Hf.
  destruct (find_last (is_base n) l) as [[r a]|]; cbn in H.
  - destruct H as (cl & -> & _). split; [discriminate|]. intros _. destruct (existsb (is_base n) l); [reflexivity|].
    discriminate (proj2 Hf eq_refl).
  - rewrite H. rewrite (proj1 Hf eq_refl). split; [discriminate|congruence].
Qed.

(** The sheet is fine given the rules [done] before it. *)
Fixpoint good_rules (done l : list rule) : Prop :=
  match l with
  | [] => True
  | r :: l' => decodable (r_body r) /\ (forall s, r_sel r = Some s -> existsb (is_base (r_class r)) done = true) /\
               good_rules (done ++ [r]) l'
  end.

Lemma head_reads_fun head c s c' s' : head_reads head c s -> head_reads head c' s' -> c = c' /\ s = s'.
Proof.
  intros (Hne & H) (_ & H'). destruct s as [s|], s' as [s'|].
  - destruct H as (Hc & Hn & E), H' as (Hc' & Hn' & E'). rewrite E in E'.
    destruct (no_in_split _ _ _ _ _ E' Hn Hn') as [-> ->]. auto.
  - destruct H as (Hc & Hn & E), H' as (-> & [Hno|[t Ht]]).
    + exfalso. apply Hno. rewrite E. apply in_or_app. right. left. reflexivity.
    + rewrite Ht in E. destruct c as [|x c]; [congruence|]. injection E as <- _. exfalso. apply Hn. left. reflexivity.
  - destruct H' as (Hc & Hn & E), H as (-> & [Hno|[t Ht]]).
    + exfalso. apply Hno. rewrite E. apply in_or_app. right. left. reflexivity.
    + rewrite Ht in E. destruct c' as [|x c']; [congruence|]. injection E as <- _. exfalso. apply Hn. left. reflexivity.
  - destruct H as (-> & _), H' as (-> & _). auto.
Qed.
Lemma sheet_fun s l : sheet s l -> forall l', sheet s l' -> l = l'.
Proof.
  induction 1 as [s Hs|head body cls sel s l Hh Hb Hr _ IH]; intros l' H'.
  - inversion H' as [s' Hs' E|head' body' cls' sel' s' l'' Hh' Hb' Hr' Hs' E]; [reflexivity|]. subst. exfalso. apply Hs.
    apply in_or_app. right. left. reflexivity.
  - inversion H' as [s' Hs' E|head' body' cls' sel' s' l'' Hh' Hb' Hr' Hs' E].
    + subst. exfalso. apply Hs'. apply in_or_app. right. left. reflexivity.
    + destruct (no_in_split _ _ _ _ _ E Hh' Hh) as [-> E2]. destruct (no_in_split _ _ _ _ _ E2 Hb' Hb) as [-> ->].
      destruct (head_reads_fun _ _ _ _ _ Hr Hr') as [<- <-]. rewrite (IH _ Hs'). reflexivity.
Qed.

Lemma go_spec n : forall pre rest cs fuel done, List.length rest < n -> List.length rest < fuel -> sheet_map done cs ->
  (exists l cs', sheet rest l /\ good_rules done l /\
     decode_classes_go shuffle fuel (pre ++ rest) (List.length pre) cs = COk cs' /\ sheet_map (done ++ l) cs') \/
  ((forall l, sheet rest l -> ~ good_rules done l) /\
   decode_classes_go shuffle fuel (pre ++ rest) (List.length pre) cs = CErr).
Proof.
  induction n as [|n IH]; intros pre rest cs fuel done Hn Hf Hm; [lia|]. destruct fuel as [|fuel]; [lia|].
  rewrite go_unfold. destruct (index_byte "{" rest) as [i|] eqn:Ei.
  2:{ left. exists [], cs. split; [constructor; apply index_byte_none, Ei|]. split; [exact I|]. split; [reflexivity|].
      rewrite app_nil_r. exact Hm. }
  apply index_split in Ei as (a & b & -> & Ha & <-). cbv zeta.
  rewrite firstn_app, Nat.sub_diag, firstn_all. cbn [firstn]. rewrite app_nil_r.
  replace (skipn (S (List.length a)) (a ++ "{"%char :: b)) with b
    by (rewrite skipn_app, skipn_all2 by lia; replace (S (List.length a) - List.length a) with 1 by lia; reflexivity).
  assert (Hinv : forall l, sheet (a ++ "{"%char :: b) l -> exists body cls sel s l', l = mkRule cls sel body :: l' /\
            b = body ++ "}"%char :: s /\ ~ In "}"%char body /\ head_reads a cls sel /\ sheet s l').
  { intros l H. inversion H as [s' Hs' E|head' body' cls' sel' s' l'' Hh' Hb' Hr' Hs' E].
    - subst. exfalso. apply Hs'. apply in_or_app. right. left. reflexivity.
    - destruct (no_in_split _ _ _ _ _ E Hh' Ha) as [-> <-]. exists body', cls', sel', s', l''. auto. }
  destruct (trim is_ws a) as [|c t] eqn:Et.
  { right. split; [|reflexivity]. intros l H. apply Hinv in H as (body & cls & sel & s & l' & _ & _ & _ & (Hne & _) & _). congruence. }
  rewrite <- Et.
  destruct (index_byte "}" b) as [k|] eqn:Ek.
  2:{ right. split; [|reflexivity]. intros l H. apply Hinv in H as (body & cls & sel & s & l' & _ & -> & _).
      apply index_byte_none in Ek. exfalso. apply Ek. apply in_or_app. right. left. reflexivity. }
  apply index_split in Ek as (b1 & b2 & -> & Hb & <-).
  rewrite firstn_app, Nat.sub_diag, firstn_all. cbn [firstn]. rewrite app_nil_r.
  assert (Hinv2 : forall l, sheet (a ++ "{"%char :: b1 ++ "}"%char :: b2) l -> exists cls sel l', l = mkRule cls sel b1 :: l' /\
            head_reads a cls sel /\ sheet b2 l').
  { intros l H. apply Hinv in H as (body & cls & sel & s & l' & -> & E & Hb' & Hr & Hs).
    destruct (no_in_split _ _ _ _ _ E Hb Hb') as [<- <-]. exists cls, sel, l'. auto. }
  clear Hinv.
  destruct (decode_mutator (shuffle (List.length pre)) b1) as [m|] eqn:Em.
  2:{ right. split; [|reflexivity]. intros l H. apply Hinv2 in H as (cls & sel & l' & -> & _). intros [Hd _]. cbn in Hd.
      destruct (decodable_any b1 _ (Hsh (List.length pre)) Hd) as [m Hm']. congruence. }
  assert (Hdec : decoded b1 m) by (exists (shuffle (List.length pre)); split; [exact (Hsh _)|assumption]).
  destruct (head_reads_total a ltac:(congruence)) as (cls & sel & Hr).
  assert (Hstep : match add_rule F (trim is_ws a) m cs with
                  | Some cs' => (forall s, sel = Some s -> existsb (is_base cls) done = true) /\ sheet_map (done ++ [mkRule cls sel b1]) cs'
                  | None => exists s, sel = Some s /\ existsb (is_base cls) done = false end).
  { destruct sel as [s|].
    - rewrite (add_rule_sel a m cs cls s Hr). pose proof (sheet_map_has done cs cls Hm) as Hh.
      destruct (map_get cls cs) as [cl|] eqn:Eg.
      + split; [intros _ _; apply Hh; discriminate|]. apply sheet_map_sel; assumption.
      + exists s. split; [reflexivity|]. destruct (existsb (is_base cls) done); [|reflexivity].
        exfalso. apply (proj1 Hh eq_refl). reflexivity.
    - rewrite (add_rule_base a m cs cls Hr). split; [discriminate|]. apply sheet_map_base; assumption. }
  destruct (add_rule F (trim is_ws a) m cs) as [cs'|].
  2:{ right. split; [|reflexivity]. intros l H. apply Hinv2 in H as (cls' & sel' & l' & -> & Hr' & _).
      destruct (head_reads_fun _ _ _ _ _ Hr Hr') as [<- <-]. destruct Hstep as (s & -> & He). intros (_ & Hs & _).
      cbn in Hs. specialize (Hs s eq_refl). congruence. }
  destruct Hstep as [Hsel Hmap].
  replace (pre ++ a ++ "{"%char :: b1 ++ "}"%char :: b2) with ((pre ++ a ++ "{"%char :: b1 ++ ["}"%char]) ++ b2)
    by (rewrite <- !app_assoc; cbn; rewrite <- app_assoc; reflexivity).
  replace (List.length pre + (List.length a + List.length b1 + 2)) with (List.length (pre ++ a ++ "{"%char :: b1 ++ ["}"%char]))
    by (rewrite !app_length; cbn; rewrite app_length; cbn; lia).
  rewrite !app_length in Hn, Hf. cbn in Hn, Hf. rewrite !app_length in Hn, Hf. cbn in Hn, Hf.
  destruct (IH (pre ++ a ++ "{"%char :: b1 ++ ["}"%char]) b2 cs' fuel (done ++ [mkRule cls sel b1]) ltac:(lia) ltac:(lia) Hmap)
    as [(l & cs2 & Hs & Hg & -> & Hm2)|(Hno & ->)].
  - left. exists (mkRule cls sel b1 :: l), cs2. split; [constructor; assumption|].
    split; [split; [exists m; exact Hdec|split; [exact Hsel|exact Hg]]|]. split; [reflexivity|].
    rewrite <- app_assoc in Hm2. exact Hm2.
  - right. split; [|reflexivity]. intros l H. apply Hinv2 in H as (cls' & sel' & l' & -> & Hr' & Hs').
    destruct (head_reads_fun _ _ _ _ _ Hr Hr') as [<- <-]. intros (_ & _ & Hg). exact (Hno l' Hs' Hg).
Qed.

Lemma good_rules_iff l : forall done, good_rules done l <->
  Forall (fun r => decodable (r_body r)) l /\
  (forall l1 r l2 s, l = l1 ++ r :: l2 -> r_sel r = Some s -> existsb (is_base (r_class r)) (done ++ l1) = true).
Proof.
  induction l as [|r l IH]; intros done; cbn [good_rules].
  - split; [intros _; split; [constructor|]; intros [|? ?] ? ? ? E; discriminate|tauto].
  - rewrite IH. split.
    + intros (Hd & Hs & Hf & Hr). split; [constructor; assumption|].
      intros [|x l1] r' l2 s E Hsel; cbn in E; injection E as <- ->.
      * rewrite app_nil_r. eapply Hs, Hsel.
      * specialize (Hr l1 r' l2 s eq_refl Hsel). rewrite <- app_assoc in Hr. exact Hr.
    + intros (Hf & Hr). inversion Hf; subst. split; [assumption|]. split.
      * intros s Hs. specialize (Hr [] r l s eq_refl Hs). rewrite app_nil_r in Hr. exact Hr.
      * split; [assumption|]. intros l1 r' l2 s -> Hsel. rewrite <- app_assoc. exact (Hr (r :: l1) r' l2 s eq_refl Hsel).
Qed.
Lemma good_rules_spec l : good_rules [] l <-> Forall (fun r => decodable (r_body r)) l /\ selectors_based l.
Proof. apply good_rules_iff. Qed.

Lemma decode_classes_total s : decode_classes shuffle s <> CPanic /\ decode_classes shuffle s <> CFuel.
Proof. unfold Class.decode_classes. apply (go_total (S (List.length (blank_controls s))) [] (blank_controls s)); lia. Qed.

Lemma decode_classes_spec s :
  (exists l cs, sheet (no_controls s) l /\ Forall (fun r => decodable (r_body r)) l /\ selectors_based l /\
     decode_classes shuffle s = COk cs /\ sheet_map l cs) \/
  ((forall l, sheet (no_controls s) l -> Forall (fun r => decodable (r_body r)) l -> ~ selectors_based l) /\
   decode_classes shuffle s = CErr).
Proof.
  unfold Class.decode_classes. rewrite blank_controls_eq.
  destruct (go_spec (S (List.length (no_controls s))) [] (no_controls s) [] (S (List.length (no_controls s))) [] ltac:(lia) ltac:(lia) sheet_map_nil)
    as [(l & cs & Hs & Hg & E & Hm)|(Hno & E)].
  - left. exists l, cs. apply good_rules_spec in Hg as [Hg1 Hg2]. auto.
  - right. split; [|exact E]. intros l Hl Hd Hb. apply (Hno l Hl). apply good_rules_spec. auto.
Qed.
Lemma decode_classes_ok s l : sheet (no_controls s) l -> Forall (fun r => decodable (r_body r)) l -> selectors_based l ->
  exists cs, decode_classes shuffle s = COk cs /\ sheet_map l cs.
Proof.
  intros H1 H2 H3. destruct (decode_classes_spec s) as [(l' & cs & Hs & _ & _ & E & Hm)|(Hno & _)].
  - rewrite (sheet_fun _ _ H1 _ Hs). exists cs. auto.
  - exfalso. exact (Hno l H1 H2 H3).
Qed.
Lemma decode_classes_err s : decode_classes shuffle s = CErr <->
  ~ exists l, sheet (no_controls s) l /\ Forall (fun r => decodable (r_body r)) l /\ selectors_based l.
Proof.
  destruct (decode_classes_spec s) as [(l' & cs & Hs & Hd & Hb & E & Hm)|(Hno & E)]; rewrite E.
  - split; [discriminate|]. intros H. exfalso. apply H. exists l'. auto.
  - split; [|reflexivity]. intros _ (l & H1 & H2 & H3). exact (Hno l H1 H2 H3).
Qed.
End Loop.

(** ** Cascade *)
Notation value := (prop_value parse_float convert_float).
Notation sets := (sets parse_float convert_float).
Notation last_sets := (last_sets parse_float convert_float).
Notation cascades := (cascades parse_float convert_float).

Lemma sets_dec s p : (exists x, sets s p x) \/ (forall x, ~ sets s p x).
Proof.
  destruct (last_decl_dec (items s) (prop_name p)) as [[v Hv]|Hn].
  - destruct (value p v) as [x|] eqn:E; [left; exists x, v; auto|].
    right. intros x (v' & Hv' & E'). rewrite (last_decl_fun _ _ _ _ Hv Hv') in E. congruence.
  - right. intros x (v & Hv & _). exact (Hn v Hv).
Qed.
Lemma sets_fun s p x y : sets s p x -> sets s p y -> x = y.
Proof. intros (v & Hv & E) (v' & Hv' & E'). rewrite (last_decl_fun _ _ _ _ Hv Hv') in E. congruence. Qed.

Lemma last_sets_cons s l p x : last_sets (s :: l) p x <-> last_sets l p x \/ (sets s p x /\ forall y, ~ last_sets l p y).
Proof.
  assert (Hex : forall l', (exists s' y, In s' l' /\ sets s' p y) -> exists y, last_sets l' p y).
  { induction l' as [|a l' IH] using rev_ind; [intros (? & ? & [] & _)|]. intros (s' & y & Hin & Hs).
    destruct (sets_dec a p) as [[z Hz]|Hz].
    - exists z, l', a, []. split; [reflexivity|]. split; [exact Hz|]. intros ? ? [].
    - apply in_app_or in Hin as [Hin|[<-|[]]]; [|exfalso; exact (Hz y Hs)].
      destruct (IH (ex_intro _ s' (ex_intro _ y (conj Hin Hs)))) as (w & l1 & e & l2 & -> & He & Hno).
      exists w, l1, e, (l2 ++ [a]). rewrite <- app_assoc. split; [reflexivity|]. split; [exact He|].
      intros s2 y2 H2. apply in_app_or in H2 as [H2|[<-|[]]]; [apply Hno, H2|apply Hz]. }
  split.
  - intros (l1 & e & l2 & E & He & Hno). destruct l1 as [|a l1]; cbn in E; injection E as -> ->.
    + right. split; [exact He|]. intros y (l1 & e' & l2' & -> & He' & _). apply (Hno e' y); [apply in_or_app; right; left; reflexivity|exact He'].
    + left. exists l1, e, l2. auto.
  - intros [(l1 & e & l2 & -> & He & Hno)|[Hs Hno]].
    + exists (s :: l1), e, l2. auto.
    + exists [], s, l. split; [reflexivity|]. split; [exact Hs|]. intros s' y Hin Hy.
      destruct (Hex l (ex_intro _ s' (ex_intro _ y (conj Hin Hy)))) as [z Hz]. exact (Hno z Hz).
Qed.
Lemma last_sets_fun l p x y : last_sets l p x -> last_sets l p y -> x = y.
Proof.
  induction l as [|s l IH]; intros H H'; [destruct H as ([|] & ? & ? & E & _); discriminate|].
  apply last_sets_cons in H, H'. destruct H as [H|[H Hn]], H' as [H'|[H' Hn']].
  - apply IH; assumption.
  - exfalso; exact (Hn' _ H).
  - exfalso; exact (Hn _ H').
  - eapply sets_fun; eassumption.
Qed.
Lemma last_sets_dec l p : (exists x, last_sets l p x) \/ (forall x, ~ last_sets l p x).
Proof.
  induction l as [|s l IH]; [right; intros x ([|] & ? & ? & E & _); discriminate|].
  destruct IH as [[x Hx]|Hn]; [left; exists x; apply last_sets_cons; auto|].
  destruct (sets_dec s p) as [[x Hx]|Hs]; [left; exists x; apply last_sets_cons; auto|].
  right. intros x H. apply last_sets_cons in H as [H|[H _]]; [exact (Hn x H)|exact (Hs x H)].
Qed.

Lemma cascades_nil s : cascades [] s s.
Proof. intros p. split; [intros x ([|] & ? & ? & E & _); discriminate|reflexivity]. Qed.
Lemma cascades_cons b m l s : decoded b m -> (forall s1, mutate m s = Some s1 -> exists s', cascades l s1 s') ->
  forall s1, mutate m s = Some s1 -> forall s', cascades l s1 s' -> cascades (b :: l) s s'.
Proof.
  intros (sh & Hsh & Hb) _ s1 H1 s' Hc p.
  destruct (decode_sets F parse_float convert_float sh b m s Hsh Hb) as (s1' & H1' & Hp). assert (s1' = s1) as -> by congruence.
  destruct (Hp p) as [Ha Hn]. destruct (Hc p) as [Ca Cn].
  assert (Hs1 : forall x, sets b p x -> prop_get p s1 = x) by (intros x (v & Hv & E); specialize (Ha v Hv); congruence).
  split.
  - intros x H. apply last_sets_cons in H as [H|[H Hno]]; [exact (Ca x H)|]. rewrite (Cn Hno). apply Hs1, H.
  - intros Hno. rewrite Cn by (intros x H; apply (Hno x), last_sets_cons; left; exact H).
    apply Hn. intros v Hv. destruct (decode_value F parse_float convert_float sh Hsh b m p v Hb Hv) as [x Hx].
    assert (Hsx : sets b p x) by (exists v; auto).
    destruct (last_sets_dec l p) as [[y Hy]|Hy]; [apply (Hno y), last_sets_cons; left; exact Hy|].
    apply (Hno x), last_sets_cons. right. auto.
Qed.
Lemma mutate_decoded b m s : decoded b m -> exists s1, mutate m s = Some s1.
Proof. intros (sh & Hsh & Hb). destruct (decode_sets F parse_float convert_float sh b m s Hsh Hb) as (s1 & H & _). exists s1. exact H. Qed.

Lemma cascades_app l1 l2 : forall s s1 s2, cascades l1 s s1 -> cascades l2 s1 s2 -> cascades (l1 ++ l2) s s2.
Proof.
  intros s s1 s2 H1 H2 p. destruct (H1 p) as [A1 B1]. destruct (H2 p) as [A2 B2].
  assert (G : forall x, last_sets (l1 ++ l2) p x <-> last_sets l2 p x \/ (last_sets l1 p x /\ forall y, ~ last_sets l2 p y)).
  { clear. induction l1 as [|s l1 IH]; intros x; cbn [app].
    - split; [auto|]. intros [H|[([|] & ? & ? & E & _) _]]; [exact H|discriminate|discriminate].
    - rewrite !last_sets_cons. rewrite IH. split.
      + intros [[H|[H Hn]]|[H Hn]]; [auto|right; auto|].
        destruct (last_sets_dec l2 p) as [[y Hy]|Hy]; [exfalso; apply (Hn y), IH; auto|].
        right. split; [right; split; [exact H|]|exact Hy]. intros y Hl. apply (Hn y), IH. auto.
      + intros [H|[[H|[H Hn]] Hy]]; [auto|auto|]. right. split; [exact H|]. intros y Hl. apply IH in Hl as [Hl|[Hl _]]; [exact (Hy y Hl)|exact (Hn y Hl)]. }
  split.
  - intros x H. apply G in H as [H|[H Hn]]; [exact (A2 x H)|]. rewrite (B2 Hn). exact (A1 x H).
  - intros Hno. rewrite B2 by (intros x H; apply (Hno x), G; auto). apply B1. intros x H.
    destruct (last_sets_dec l2 p) as [[y Hy]|Hy]; [apply (Hno y), G; auto|]. apply (Hno x), G. auto.
Qed.
Lemma cascades_one b m s s1 : decoded b m -> mutate m s = Some s1 -> cascades [b] s s1.
Proof. intros Hd H. eapply cascades_cons; [exact Hd| |exact H|apply cascades_nil]. intros s2 _. exists s2. apply cascades_nil. Qed.

Lemma mutate_append m n s : mutate (mutator_append F m n) s = match mutate m s with Some s1 => mutate n s1 | None => None end.
Proof.
  unfold mutator_append. revert s. induction m as [|[p x] m IH]; intros s; [reflexivity|]. cbn [app mutate].
  destruct (set_path p x (styles_val s)) as [v|]; [|reflexivity]. destruct (val_styles v) as [s'|]; [apply IH|reflexivity].
Qed.
Lemma append_cascade sh sh' a b m n : map_order sh -> map_order sh' -> decode_mutator sh a = Some m -> decode_mutator sh' b = Some n ->
  forall s, exists s', mutate (mutator_append F m n) s = Some s' /\ cascades [a; b] s s'.
Proof.
  intros H1 H2 Ha Hb s. assert (Da : decoded a m) by (exists sh; split; assumption). assert (Db : decoded b n) by (exists sh'; split; assumption).
  destruct (mutate_decoded a m s Da) as [s1 E1]. destruct (mutate_decoded b n s1 Db) as [s2 E2]. exists s2. rewrite mutate_append, E1. split; [exact E2|].
  apply (cascades_app [a] [b] s s1 s2); eapply cascades_one; eassumption.
Qed.
Lemma mutate_all_cascade bs ms : Forall2 decoded bs ms -> forall s, exists s', mutate_all F ms s = Some s' /\ cascades bs s s'.
Proof.
  induction 1 as [|b m bs ms Hb _ IH]; intros s; cbn [mutate_all].
  - exists s. split; [reflexivity|apply cascades_nil].
  - destruct (mutate_decoded b m s Hb) as [s1 H1]. rewrite H1. destruct (IH s1) as (s' & -> & Hc).
    exists s'. split; [reflexivity|]. change (b :: bs) with ([b] ++ bs). eapply cascades_app; [|exact Hc]. eapply cascades_one; eassumption.
Qed.
Lemma classes_cascade rules cs use : sheet_map rules cs -> forall s, exists s', classes_mutate F cs use s = Some s' /\
  cascades (flat_map (fun n => opt_list (class_rule rules n)) use) s s'.
Proof.
  intros Hm. induction use as [|n use IH]; intros s; cbn [classes_mutate flat_map].
  - exists s. split; [reflexivity|apply cascades_nil].
  - specialize (Hm n). destruct (class_rule rules n) as [b|].
    + destruct Hm as (cl & -> & Hd & _). unfold class_mutate.
      destruct (mutate_decoded b _ s Hd) as [s1 H1]. rewrite H1. destruct (IH s1) as (s' & -> & Hc).
      exists s'. split; [reflexivity|]. eapply cascades_app; [|exact Hc]. eapply cascades_one; eassumption.
    + rewrite Hm. apply IH.
Qed.
Lemma classes_sel_cascade rules cs sel use : sheet_map rules cs -> forall s, exists s', classes_mutate_sel F sel cs use s = Some s' /\
  cascades (flat_map (fun n => opt_list (match selector_rule rules n sel with Some b => Some b | None => class_rule rules n end)) use) s s'.
Proof.
  intros Hm. induction use as [|n use IH]; intros s; cbn [classes_mutate_sel flat_map].
  - exists s. split; [reflexivity|apply cascades_nil].
  - specialize (Hm n). destruct (class_rule rules n) as [b|] eqn:Ec.
    + destruct Hm as (cl & -> & Hd & Hs). unfold class_mutate_sel. specialize (Hs sel).
      destruct (selector_rule rules n sel) as [b'|].
      * destruct Hs as (m & -> & Hd'). destruct (mutate_decoded b' m s Hd') as [s1 H1]. rewrite H1. destruct (IH s1) as (s' & -> & Hc).
        exists s'. split; [reflexivity|]. eapply cascades_app; [|exact Hc]. eapply cascades_one; eassumption.
      * rewrite Hs. destruct (mutate_decoded b _ s Hd) as [s1 H1]. rewrite H1. destruct (IH s1) as (s' & -> & Hc).
        exists s'. split; [reflexivity|]. eapply cascades_app; [|exact Hc]. eapply cascades_one; eassumption.
    + rewrite Hm. assert (Es : selector_rule rules n sel = None).
      { unfold class_rule in Ec. unfold selector_rule. destruct (find_last (is_base n) rules); [discriminate|reflexivity]. }
      rewrite Es. apply IH.
Qed.

Section Attrs.
Variable shuffle : nat -> rawmap -> rawmap.
Hypothesis Hsh : forall n l, Permutation (shuffle n l) l.
Notation decode_attrs_go := (decode_attrs_go F parse_float convert_float shuffle).

Lemma attrs_go attrs : forall n st st', decode_attrs_go n attrs st = Some st' ->
  exists ms, st_mutators st' = st_mutators st ++ ms /\ Forall2 decoded (attr_values ($"style") attrs) ms /\
    st_classes st' = st_classes st ++ flat_map fields (attr_values ($"class") attrs).
Proof.
  induction attrs as [|[name v] attrs IH]; intros n st st' H; cbn [Class.decode_attrs_go] in H.
  - injection H as <-. exists []. cbn. rewrite !app_nil_r. repeat split. constructor.
  - unfold attr_values in *. cbn [filter fst].
    destruct (beqb_spec name ($"style")) as [->|Hs].
    + change (beqb ($"style") ($"class")) with false. cbv iota.
      destruct (decode_mutator (shuffle n) v) as [m|] eqn:Em; [|discriminate].
      apply IH in H as (ms & E & Hf & Ec). cbn in E, Ec. exists (m :: ms). rewrite E, <- app_assoc. split; [reflexivity|].
      split; [|exact Ec]. cbn. constructor; [|exact Hf]. exists (shuffle n). split; [exact (Hsh n)|assumption].
    + destruct (beqb_spec name ($"class")) as [->|Hc].
      * apply IH in H as (ms & E & Hf & Ec). cbn in E, Ec. exists ms. split; [exact E|]. split; [exact Hf|].
        rewrite Ec, <- app_assoc. reflexivity.
      * apply IH in H as (ms & E & Hf & Ec). exists ms. auto.
Qed.
Lemma attrs_none attrs : forall n st, decode_attrs_go n attrs st = None <-> Exists (fun b => ~ decodable b) (attr_values ($"style") attrs).
Proof.
  induction attrs as [|[name v] attrs IH]; intros n st; cbn [Class.decode_attrs_go].
  - split; [discriminate|]. intros H; inversion H.
  - unfold attr_values in *. cbn [filter fst]. destruct (beqb_spec name ($"style")) as [->|Hs].
    + cbn [map snd]. rewrite Exists_cons. destruct (decode_mutator (shuffle n) v) as [m|] eqn:Em.
      * rewrite IH. split; [auto|]. intros [H|H]; [|exact H]. exfalso. apply H. exists m, (shuffle n). split; [exact (Hsh n)|assumption].
      * split; [|reflexivity]. intros _. left. intros Hd. destruct (decodable_any v _ (Hsh n) Hd). congruence.
    + destruct (beqb_spec name ($"class")); apply IH.
Qed.

Lemma mutated_styles_spec rules cs attrs st s : sheet_map rules cs ->
  decode_attrs F parse_float convert_float shuffle attrs = Some st ->
  exists s', mutated_styles cs st s = Some s' /\
    cascades (sources rules (flat_map fields (attr_values ($"class") attrs)) (attr_values ($"style") attrs)) s s'.
Proof.
  intros Hm H. apply attrs_go in H as (ms & E & Hf & Ec). cbn [st_mutators st_classes app] in E, Ec.
  unfold mutated_styles. rewrite E, Ec.
  destruct (classes_cascade rules cs (flat_map fields (attr_values ($"class") attrs)) Hm s) as (s1 & -> & C1).
  destruct (mutate_all_cascade _ _ Hf s1) as (s2 & -> & C2). exists s2. split; [reflexivity|].
  eapply cascades_app; eassumption.
Qed.
Lemma mutated_styles_sel_spec rules cs attrs st s sel : sheet_map rules cs ->
  decode_attrs F parse_float convert_float shuffle attrs = Some st ->
  exists s', mutated_styles_sel sel cs st s = Some s' /\
    cascades (sources_sel rules sel (flat_map fields (attr_values ($"class") attrs)) (attr_values ($"style") attrs)) s s'.
Proof.
  intros Hm H. apply attrs_go in H as (ms & E & Hf & Ec). cbn [st_mutators st_classes app] in E, Ec.
  unfold mutated_styles_sel. rewrite E, Ec.
  destruct (classes_sel_cascade rules cs sel (flat_map fields (attr_values ($"class") attrs)) Hm s) as (s1 & -> & C1).
  destruct (mutate_all_cascade _ _ Hf s1) as (s2 & -> & C2). exists s2. split; [reflexivity|].
  eapply cascades_app; eassumption.
Qed.
Lemma attrs_refused attrs : decode_attrs F parse_float convert_float shuffle attrs = None <->
  Exists (fun b => ~ decodable b) (attr_values ($"style") attrs).
Proof. apply attrs_none. Qed.
End Attrs.
End S.

(** ** strings.Fields *)
Lemma chunks_skip p s : chunks_go (List.length p) (p ++ s) = chunks_go 0 s.
Proof. induction p as [|c p IH]; [reflexivity|]. cbn. exact IH. Qed.
Lemma chunks_encode_rune r s : valid_rune r = true -> chunks (encode_rune r ++ s) = (r, encode_rune r) :: chunks s.
Proof.
  intros Hv. pose proof (decode_encode_rune r s Hv) as Hd. unfold chunks.
  pose proof (encode_rune_length r) as Hl.
  destruct (encode_rune r) as [|c p] eqn:E; [cbn in Hl; lia|]. cbn [app] in *.
  cbn [chunks_go decode_go] in *. destruct (decode_first c (p ++ s)) as [r' k] eqn:Ed.
  pose proof (decode_first_cases _ _ _ _ Ed) as Hc.
  assert (Hr : r' = r) by congruence.
  destruct Hc as [(Hr' & -> & Hb)|(_ & p' & t & Ept & Hlen & Henc)].
  - subst r'. assert (Er : r = rune_error) by congruence. rewrite Er in E. 
    vm_compute in E. injection E as <- <-. cbn [app] in Ed. vm_compute in Ed. discriminate.
  - subst r'. rewrite E in Henc. injection Henc as ->. subst k.
    rewrite firstn_app, Nat.sub_diag, firstn_all. cbn [firstn]. rewrite app_nil_r. rewrite chunks_skip. reflexivity.
Qed.
Lemma chunks_encode rs : valid_runes rs -> chunks (encode rs) = map (fun r => (r, encode_rune r)) rs.
Proof.
  induction 1 as [|r rs Hr _ IH]; [reflexivity|]. cbn [encode flat_map map].
  rewrite chunks_encode_rune by exact Hr. f_equal. exact IH.
Qed.
Lemma fields_go_word cur w l : Forall (fun r => is_space r = false) w ->
  fields_go cur (map (fun r => (r, encode_rune r)) w ++ l) = fields_go (cur ++ encode w) l.
Proof.
  intros Hw. revert cur; induction Hw as [|r w Hr _ IH]; intros cur; cbn [map app fields_go encode flat_map].
  - rewrite app_nil_r. reflexivity.
  - rewrite Hr, IH, <- app_assoc. reflexivity.
Qed.
Lemma fields_go_space sp l : Forall (fun r => is_space r = true) sp ->
  fields_go [] (map (fun r => (r, encode_rune r)) sp ++ l) = fields_go [] l.
Proof. induction 1 as [|r sp Hr _ IH]; [reflexivity|]. cbn [map app fields_go]. rewrite Hr. exact IH. Qed.
Lemma encode_nonnil w : w <> [] -> exists c t, encode w = c :: t.
Proof.
  destruct w as [|r w]; [congruence|]. intros _. cbn. pose proof (encode_rune_length r).
  destruct (encode_rune r) as [|c t]; [cbn in *; lia|]. exists c, (t ++ flat_map encode_rune w). reflexivity.
Qed.
Lemma fields_words rs ws : words rs ws -> fields_go [] (map (fun r => (r, encode_rune r)) rs) = map encode ws.
Proof.
  induction 1 as [sp Hsp|sp w rest ws Hsp Hne Hw Hrest _ IH].
  - rewrite <- (app_nil_r (map _ sp)), fields_go_space by (eapply Forall_impl; [|exact Hsp]; intros r; apply white_iff). reflexivity.
  - rewrite !map_app, fields_go_space by (eapply Forall_impl; [|exact Hsp]; intros r; apply white_iff). rewrite fields_go_word by (eapply Forall_impl; [|exact Hw]; intros r; apply white_not). cbn [app map].
    destruct (encode_nonnil w Hne) as (c & t & E). rewrite E.
    destruct rest as [|r rest]; cbn [map fields_go] in *.
    + f_equal. exact IH.
    + apply white_iff in Hrest. rewrite Hrest in *. f_equal. exact IH.
Qed.
Lemma fields_ok rs ws : valid_runes rs -> words rs ws -> fields (encode rs) = map encode ws.
Proof. intros Hv Hw. unfold fields. rewrite chunks_encode by exact Hv. apply fields_words, Hw. Qed.
