(** Proofs about paths *)
From Verif Require Import GoStr GoStrFacts Path PathSpec.
Require Import Lia Arith.

Lemma elements_nil : elements [] = [[]].
Proof. reflexivity. Qed.
Lemma elements_slash p : elements (slash :: p) = [] :: elements p.
Proof. reflexivity. Qed.
Lemma elements_ne p : elements p <> [].
Proof. destruct p as [|c p]; [discriminate|]. cbn. destruct (Ascii.eqb c "/"); [discriminate|]. destruct (split_byte "/" p); discriminate. Qed.
Lemma elements_cons c p : is_slash c = false ->
  elements (c :: p) = (c :: hd [] (elements p)) :: tl (elements p).
Proof.
  intro H. unfold elements. cbn. unfold is_slash, slash in H. rewrite H.
  pose proof (elements_ne p) as N. unfold elements in N. destruct (split_byte "/" p); [congruence|reflexivity].
Qed.
Lemma elements_end q : at_end q = true -> elements q = [] :: tl (elements q).
Proof.
  destruct q as [|c q]; [reflexivity|]. cbn. unfold is_slash, slash. intro H. rewrite H. reflexivity.
Qed.
Definition noslash (e : bytes) : Prop := Forall (fun c => is_slash c = false) e.
Lemma elements_app e q : noslash e -> at_end q = true -> elements (e ++ q) = e :: tl (elements q).
Proof.
  intros H E. induction H as [|c e C H IH]; [apply elements_end, E|].
  cbn [app]. rewrite (elements_cons c _ C), IH. reflexivity.
Qed.
Lemma take_elem_is p : forall out, exists e q,
  p = e ++ q /\ noslash e /\ at_end q = true /\ take_elem p out = (q, rev e ++ out).
Proof.
  induction p as [|c p IH]; intro out; [exists [], []; repeat split; constructor|].
  cbn [take_elem]. destruct (is_slash c) eqn:C.
  - exists [], (c :: p). repeat split; [constructor|exact C].
  - destruct (IH (c :: out)) as (e & q & -> & N & A & ->). exists (c :: e), q. repeat split; [constructor; assumption|assumption|].
    cbn. rewrite <- app_assoc. reflexivity.
Qed.
Lemma noslash_in e : noslash e <-> ~ In "/"%char e.
Proof.
  unfold noslash. rewrite Forall_forall. split.
  - intros H I. specialize (H _ I). discriminate H.
  - intros H c I. unfold is_slash, slash. destruct (Ascii.eqb c "/"%char) eqn:E; [|reflexivity].
    apply Ascii.eqb_eq in E. subst. contradiction.
Qed.

(** The state of cleaning: ".." elements, then names *)
Definition ups (k : nat) : list bytes := repeat ($"..") k.
Definition rend (r : bool) (k : nat) (ns : list bytes) : bytes :=
  if r then slash :: str_join ($"/") ns else str_join ($"/") (ups k ++ ns).
Definition keep (r : bool) (k : nat) : nat := if r then 1 else List.length (str_join ($"/") (ups k)).
Definition step (r : bool) (s : nat * list bytes) (e : bytes) : nat * list bytes :=
  let '(k, ns) := s in
  if beqb e ($"") then s else if beqb e ($".") then s
  else if beqb e ($"..") then
    match ns with [] => if r then (k, []) else (S k, []) | _ => (k, removelast ns) end
  else (k, ns ++ [e]).
Definition ok (r : bool) (s : nat * list bytes) : Prop := Forall name (snd s) /\ (r = true -> fst s = 0%nat).

Lemma join_snoc l e : l <> [] -> str_join ($"/") (l ++ [e]) = str_join ($"/") l ++ slash :: e.
Proof.
  induction l as [|a l IH]; [congruence|]. intros _. destruct l as [|b l]; [reflexivity|].
  change ((a :: b :: l) ++ [e]) with (a :: (b :: l) ++ [e]).
  assert (E : forall x y, y <> [] -> str_join ($"/") (x :: y) = x ++ slash :: str_join ($"/") y) by (intros x [|y0 y] N; [congruence|reflexivity]).
  rewrite E by (destruct l; discriminate). rewrite E by discriminate. rewrite IH by discriminate.
  rewrite <- app_assoc. reflexivity.
Qed.
Lemma ups_S k : ups (S k) = ups k ++ [$".."].
Proof. unfold ups. induction k as [|k IH]; [reflexivity|]. cbn [repeat app] in *. rewrite <- IH. reflexivity. Qed.
Lemma name_noslash e : name e -> noslash e.
Proof. intros (_ & _ & _ & H). apply noslash_in, H. Qed.
Lemma name_ne e : name e -> e <> [].
Proof. intros (H & _). exact H. Qed.

Lemma drop_slash dd o : (dd <= List.length o)%nat -> forall e, noslash e -> drop_to_slash dd (e ++ slash :: o) = o.
Proof.
  intros L e N. induction N as [|c e C N IH]; [reflexivity|].
  cbn [app drop_to_slash]. rewrite C. replace (Nat.ltb dd _) with true; [exact IH|].
  symmetry. apply Nat.ltb_lt. rewrite app_length. cbn [List.length]. lia.
Qed.
Lemma drop_all dd o : dd = List.length o -> forall e, noslash e -> e <> [] -> drop_to_slash dd (e ++ o) = o.
Proof.
  intros L e N. induction N as [|c e C N IH]; [congruence|]. intros _.
  cbn [app drop_to_slash]. rewrite C. destruct e as [|d e].
  - cbn [app]. subst dd. rewrite Nat.ltb_irrefl. reflexivity.
  - replace (Nat.ltb dd _) with true; [apply IH; discriminate|].
    symmetry. apply Nat.ltb_lt. rewrite app_length. cbn [List.length]. lia.
Qed.
Lemma join_ne l : (forall e, In e l -> e <> []) -> l <> [] -> str_join ($"/") l <> [].
Proof.
  destruct l as [|a l]; [congruence|]. intros H _ E. specialize (H a (or_introl eq_refl)).
  destruct l; cbn in E; [congruence|]. apply app_eq_nil in E. tauto.
Qed.
Lemma ups_in k e : In e (ups k) -> e = $"..".
Proof. intro H. apply repeat_spec in H. exact H. Qed.
Lemma parts_ne k ns e : Forall name ns -> In e (ups k ++ ns) -> e <> [].
Proof.
  intros F I. apply in_app_or in I. destruct I as [I|I]; [rewrite (ups_in _ _ I); discriminate|].
  rewrite Forall_forall in F. apply name_ne, F, I.
Qed.
Lemma snoc_ne {A} (l : list A) x : l ++ [x] <> [].
Proof. destruct l; discriminate. Qed.
Lemma rend_snoc r k ns e : Forall name ns ->
  rev (rend r k (ns ++ [e])) =
  rev e ++ (if r then if Nat.eqb (List.length (rend r k ns)) 1 then rev (rend r k ns) else slash :: rev (rend r k ns)
            else match rev (rend r k ns) with [] => [] | o => slash :: o end).
Proof.
  intros F. unfold rend. destruct r.
  - destruct ns as [|a ns].
    + cbn [app str_join List.length]. reflexivity.
    + cbn [List.length]. rewrite join_snoc by discriminate.
      assert (N : str_join ($"/") (a :: ns) <> []) by (apply join_ne; [|discriminate]; intros x I; rewrite Forall_forall in F; apply name_ne, F, I).
      destruct (str_join ($"/") (a :: ns)) as [|c s] eqn:E; [congruence|]. cbn [List.length Nat.eqb].
      cbn [rev]. rewrite rev_app_distr. cbn [rev]. rewrite <- !app_assoc. cbn. rewrite <- ?app_assoc. reflexivity.
  - rewrite app_assoc. remember (ups k ++ ns) as l eqn:L. destruct l as [|a l].
    + cbn. rewrite app_nil_r. reflexivity.
    + rewrite join_snoc by discriminate.
      assert (N : str_join ($"/") (a :: l) <> []) by (apply join_ne; [|discriminate]; intros x I; rewrite L in I; exact (parts_ne _ _ _ F I)).
      rewrite rev_app_distr. cbn [rev]. rewrite <- app_assoc. f_equal.
      destruct (rev (str_join ($"/") (a :: l))) as [|c s] eqn:E.
      * apply (f_equal (@List.length _)) in E. rewrite rev_length in E. destruct (str_join ($"/") (a :: l)); [congruence|discriminate].
      * reflexivity.
Qed.
Lemma rend_len r k ns : Forall name ns -> (keep r k <= List.length (rend r k ns))%nat.
Proof.
  intro F. pattern ns. revert F. induction ns as [|e ns IH] using rev_ind; intro F.
  - unfold keep, rend. destruct r; [cbn; lia|]. rewrite app_nil_r. lia.
  - apply Forall_app in F. destruct F as [F _]. specialize (IH F).
    rewrite <- (rev_length (rend r k (ns ++ [e]))). rewrite rend_snoc by exact F. rewrite app_length.
    destruct r.
    + destruct (Nat.eqb _ 1); cbn [List.length]; rewrite !rev_length; lia.
    + destruct (rev (rend false k ns)) eqn:R; apply (f_equal (@List.length _)) in R; rewrite rev_length in R; cbn [List.length] in *; lia.
Qed.
Lemma rend_drop r k ns e : Forall name ns -> name e ->
  (keep r k < List.length (rend r k (ns ++ [e])))%nat /\
  drop_to_slash (keep r k) (rev (rend r k (ns ++ [e]))) = rev (rend r k ns).
Proof.
  intros F N. pose proof (rend_len r k ns F) as L.
  assert (E : noslash (rev e)) by (apply Forall_rev, name_noslash, N).
  assert (Ne : rev e <> []) by (intro H; apply (name_ne e N); rewrite <- (rev_involutive e), H; reflexivity).
  rewrite <- (rev_length (rend r k (ns ++ [e]))). rewrite rend_snoc by exact F.
  assert (L1 : (0 < List.length (rev e))%nat) by (destruct (rev e); [congruence|cbn; lia]).
  rewrite app_length. destruct r.
  - destruct (Nat.eqb _ 1) eqn:Q.
    + apply Nat.eqb_eq in Q. rewrite (rev_length (rend _ _ _)). split; [cbn [keep]; lia|].
      apply drop_all; [rewrite rev_length; cbn [keep]; lia|exact E|exact Ne].
    + cbn [List.length]. rewrite (rev_length (rend _ _ _)). split; [lia|]. apply drop_slash; [rewrite rev_length; exact L|exact E].
  - destruct (rev (rend false k ns)) as [|c o] eqn:R.
    + apply (f_equal (@List.length _)) in R. rewrite rev_length in R. cbn [List.length] in *. split; [lia|].
      apply drop_all; [cbn [List.length]; lia|exact E|exact Ne].
    + assert (R' := f_equal (@List.length _) R). rewrite rev_length in R'.
      cbn [List.length] in *. split; [lia|]. apply drop_slash; [cbn [List.length]; lia|exact E].
Qed.
Lemma rend_nil_len r k : (r = true -> k = 0%nat) -> List.length (rend r k []) = keep r k.
Proof. intro H. unfold rend, keep. destruct r; [reflexivity|]. rewrite app_nil_r. reflexivity. Qed.
Lemma rend_up k : rev (rend false (S k) []) = dot :: dot :: match rev (rend false k []) with [] => [] | _ => slash :: rev (rend false k []) end.
Proof.
  pose proof (rend_snoc false 0 (ups k) ($"..")) as H. unfold rend in *. cbn [ups repeat app] in H. rewrite !app_nil_r.
  rewrite ups_S. destruct k as [|k]; [reflexivity|].
  rewrite join_snoc by discriminate. rewrite rev_app_distr. cbn [rev]. rewrite <- app_assoc.
  assert (N : str_join ($"/") (ups (S k)) <> []) by (apply join_ne; [|discriminate]; intros x I; rewrite (ups_in _ _ I); discriminate).
  destruct (rev (str_join ($"/") (ups (S k)))) as [|c s] eqn:E; [|reflexivity].
  apply (f_equal (@List.length _)) in E. rewrite rev_length in E. destruct (str_join ($"/") (ups (S k))); [congruence|discriminate].
Qed.

Lemma fold_skip r s es : fold_left (step r) ([] :: es) s = fold_left (step r) es s.
Proof. cbn [fold_left]. destruct s. reflexivity. Qed.

Lemma step_ok r s e : ok r s -> noslash e -> ok r (step r s e).
Proof.
  destruct s as [k ns]. intros [F Z] N. unfold step.
  destruct (beqb_spec e ($"")) as [|A]; [split; assumption|].
  destruct (beqb_spec e ($".")) as [|B]; [split; assumption|].
  destruct (beqb_spec e ($"..")) as [|C].
  - destruct ns as [|a ns].
    + destruct r; split; cbn in *; try constructor; try discriminate; assumption.
    + split; [|exact Z]. cbn [snd] in *. rewrite (app_removelast_last (l := a :: ns) []) in F by discriminate.
      apply Forall_app in F. tauto.
  - split; [|exact Z]. cbn [snd] in *. apply Forall_app. split; [exact F|]. constructor; [|constructor].
    repeat split; try assumption. apply noslash_in, N.
Qed.

Theorem clean_loop_is r : forall fuel path k ns, (List.length path < fuel)%nat -> ok r (k, ns) ->
  exists k' ns', ok r (k', ns') /\ fold_left (step r) (elements path) (k, ns) = (k', ns') /\
    clean_loop fuel r (keep r k) path (rev (rend r k ns)) = Some (rev (rend r k' ns')).
Proof.
  induction fuel as [|fuel IH]; intros path k ns L O; [lia|].
  destruct path as [|c path].
  - exists k, ns. split; [exact O|]. split; [reflexivity|reflexivity].
  - cbn [clean_loop]. cbn [List.length] in L. destruct (is_slash c) eqn:C.
    { apply Ascii.eqb_eq in C. subst c. rewrite elements_slash, fold_skip. apply IH; [lia|exact O]. }
    destruct (Ascii.eqb c dot && at_end path) eqn:D.
    { apply Bool.andb_true_iff in D. destruct D as [D1 D2]. apply Ascii.eqb_eq in D1. subst c.
      change (dot :: path) with ([dot] ++ path). rewrite elements_app by (try exact D2; repeat constructor).
      destruct (IH path k ns ltac:(lia) O) as (k' & ns' & O' & Fo & R). exists k', ns'. split; [exact O'|]. split; [|exact R].
      rewrite (elements_end path D2), fold_skip in Fo. exact Fo. }
    match goal with |- context [if ?b then _ else _] => destruct b eqn:DD end.
    { destruct path as [|d path]; [rewrite Bool.andb_false_r in DD; discriminate|].
      apply Bool.andb_true_iff in DD. destruct DD as [D1 DD]. apply Bool.andb_true_iff in DD. destruct DD as [D2 DD].
      apply Ascii.eqb_eq in D1, D2. subst c d. cbn [tl]. cbn [List.length] in L.
      change (dot :: dot :: path) with ([dot; dot] ++ path). rewrite elements_app by (try exact DD; repeat constructor).
      assert (Z : forall k ns, ok r (k, ns) -> exists k' ns', ok r (k', ns') /\
        fold_left (step r) (tl (elements path)) (k, ns) = (k', ns') /\
        clean_loop fuel r (keep r k) path (rev (rend r k ns)) = Some (rev (rend r k' ns'))).
      { intros k0 ns0 O0. destruct (IH path k0 ns0 ltac:(lia) O0) as (k' & ns' & O' & Fo & R). exists k', ns'. split; [exact O'|].
        split; [|exact R]. rewrite (elements_end path DD), fold_skip in Fo. exact Fo. }
      cbn [fold_left]. rewrite rev_length.
      assert (N2 : noslash [dot; dot]) by (repeat constructor).
      pose proof (step_ok r (k, ns) [dot; dot] O N2) as SO.
      destruct ns as [|a nt].
      - rewrite rend_nil_len by (apply O). rewrite Nat.ltb_irrefl.
        destruct r.
        + change (step true (k, []) [dot; dot]) with (k, @nil bytes). apply Z, O.
        + change (step false (k, []) [dot; dot]) with (S k, @nil bytes) in *. rewrite <- rend_up.
          replace (List.length (rev (rend false (S k) []))) with (keep false (S k)); [apply Z, SO|].
          rewrite rev_length. symmetry. apply rend_nil_len. discriminate.
      - destruct (@exists_last _ (a :: nt) ltac:(discriminate)) as (ns0 & e & Q).
        rewrite Q in *. destruct O as [Fn O2]. cbn [snd] in Fn. apply Forall_app in Fn. destruct Fn as [Fn Fe].
        inversion Fe as [|? ? Ne _]; subst.
        destruct (rend_drop r k ns0 e Fn Ne) as [Lt Dr]. rewrite (proj2 (Nat.ltb_lt _ _) Lt), Dr.
        replace (step r (k, ns0 ++ [e]) [dot; dot]) with (k, ns0).
        + apply Z. split; [exact Fn|exact O2].
        + unfold step. change (beqb [dot; dot] ($"")) with false. change (beqb [dot; dot] ($".")) with false.
          change (beqb [dot; dot] ($"..")) with true. cbv iota.
          destruct (ns0 ++ [e]) eqn:Q2; [destruct ns0; discriminate|]. rewrite <- Q2, removelast_last. reflexivity. }
    (* a name *)
    destruct (take_elem_is (c :: path) (if r then (if Nat.eqb (List.length (rev (rend r k ns))) 1 then rev (rend r k ns) else slash :: rev (rend r k ns))
        else match rev (rend r k ns) with [] => [] | _ => slash :: rev (rend r k ns) end)) as (e & q & Q & Ns & Ae & ->).
    assert (Ene : e <> []).
    { intros ->. cbn [app] in Q. subst q. cbn [at_end] in Ae. congruence. }
    assert (Nm : name e).
    { split; [exact Ene|]. split; [|split]; [| |apply noslash_in, Ns].
      - intros ->. injection Q as Qc Qp. subst c path. rewrite Ae in D. discriminate D.
      - intros ->. change (c :: path = dot :: dot :: q) in Q. injection Q as Qc Qp. subst c path. rewrite Ae in DD. discriminate DD. }
    rewrite Q, elements_app by assumption. cbn [fold_left].
    replace (step r (k, ns) e) with (k, ns ++ [e]).
    2:{ unfold step. destruct Nm as (N1 & N2 & N3 & _).
        destruct (beqb_spec e ($"")); [congruence|]. destruct (beqb_spec e ($".")); [congruence|].
        destruct (beqb_spec e ($"..")); [congruence|]. reflexivity. }
    assert (O1 : ok r (k, ns ++ [e])).
    { destruct O as [F Z]. split; [|exact Z]. cbn [snd] in *. apply Forall_app. split; [exact F|]. constructor; [exact Nm|constructor]. }
    assert (Lq : (List.length q < fuel)%nat).
    { apply (f_equal (@List.length _)) in Q. rewrite app_length in Q. destruct e; [congruence|]. cbn [List.length] in Q. lia. }
    destruct (IH q k (ns ++ [e]) Lq O1) as (k' & ns' & O' & Fo & R). exists k', ns'. split; [exact O'|].
    split; [rewrite (elements_end q Ae), fold_skip in Fo; exact Fo|].
    rewrite <- R. f_equal. rewrite rend_snoc by (apply O). f_equal. rewrite rev_length.
    destruct r; [reflexivity|]. destruct (rev (rend false k ns)); reflexivity.
Qed.

(** Where paths lead *)
Definition den (d : list bytes) (s : nat * list bytes) : list bytes := Nat.iter (fst s) (@removelast bytes) d ++ snd s.
Lemma goto_app a : forall d b, goto d (a ++ b) = goto (goto d a) b.
Proof. induction a as [|e a IH]; intros d b; [reflexivity|]. cbn [app goto]. apply IH. Qed.
Lemma removelast_app' {A} (l m : list A) : m <> [] -> removelast (l ++ m) = l ++ removelast m.
Proof. apply removelast_app. Qed.
Lemma den_step_rel d s e : den d (step false s e) = goto (den d s) [e].
Proof.
  destruct s as [k ns]. unfold step. cbn [goto]. destruct (beqb e ($"")); [reflexivity|]. destruct (beqb e ($".")); [reflexivity|].
  destruct (beqb e ($"..")).
  - unfold den. cbn [fst snd]. destruct ns as [|a ns].
    + cbn [fst snd]. rewrite !app_nil_r. reflexivity.
    + cbn [fst snd]. rewrite removelast_app' by discriminate. reflexivity.
  - unfold den. cbn [fst snd]. rewrite app_assoc. reflexivity.
Qed.
Lemma den_fold_rel es : forall d s, den d (fold_left (step false) es s) = goto (den d s) es.
Proof.
  induction es as [|e es IH]; intros d s; [reflexivity|]. cbn [fold_left]. rewrite IH, den_step_rel. reflexivity.
Qed.
Lemma fold_abs es : forall ns, fold_left (step true) es (0%nat, ns) = (0%nat, goto ns es).
Proof.
  induction es as [|e es IH]; intro ns; [reflexivity|]. cbn [fold_left goto]. unfold step at 2.
  destruct (beqb e ($"")); [apply IH|]. destruct (beqb e ($".")); [apply IH|].
  destruct (beqb e ($"..")); [|apply IH]. destruct ns; apply IH.
Qed.
Lemma elements_join l : l <> [] -> Forall noslash l -> elements (str_join ($"/") l) = l.
Proof.
  intros N F. induction F as [|e l E F IH]; [congruence|]. destruct l as [|b l].
  - cbn [str_join]. rewrite <- (app_nil_r e) at 1. apply elements_app; [exact E|reflexivity].
  - change (str_join ($"/") (e :: b :: l)) with (e ++ slash :: str_join ($"/") (b :: l)).
    rewrite elements_app by (try exact E; reflexivity). rewrite elements_slash, IH by discriminate. reflexivity.
Qed.
Lemma goto_ups k : forall d, goto d (ups k) = Nat.iter k (@removelast bytes) d.
Proof.
  induction k as [|k IH]; intro d; [reflexivity|]. rewrite ups_S, goto_app, IH. reflexivity.
Qed.
Lemma goto_names ns : Forall name ns -> forall d, goto d ns = d ++ ns.
Proof.
  induction 1 as [|e ns E F IH]; intro d; [cbn; rewrite app_nil_r; reflexivity|]. cbn [goto].
  destruct E as (N1 & N2 & N3 & _). destruct (beqb_spec e ($"")); [congruence|]. destruct (beqb_spec e ($".")); [congruence|].
  destruct (beqb_spec e ($"..")); [congruence|]. rewrite IH, <- app_assoc. reflexivity.
Qed.
Lemma goto_den d k ns : Forall name ns -> goto d (ups k ++ ns) = den d (k, ns).
Proof. intro F. rewrite goto_app, goto_ups, goto_names by exact F. reflexivity. Qed.
Lemma ups_noslash k : Forall noslash (ups k).
Proof. unfold ups. induction k; constructor; [repeat constructor|assumption]. Qed.
Lemma names_noslash ns : Forall name ns -> Forall noslash ns.
Proof. intro F. eapply Forall_impl; [|exact F]. apply name_noslash. Qed.

Lemma leads_abs d p : is_abs p = true -> leads d p = goto [] (elements p).
Proof. destruct p as [|c p]; [discriminate|]. cbn. unfold is_slash, slash. intro H. rewrite H. reflexivity. Qed.
Lemma leads_rel d p : is_abs p = false -> leads d p = goto d (elements p).
Proof. destruct p as [|c p]; [reflexivity|]. cbn [is_abs leads]. unfold is_slash, slash. intro H. rewrite H. reflexivity. Qed.
Lemma absolute_is p : absolute p <-> is_abs p = true.
Proof.
  split; [intros [q ->]; reflexivity|]. destruct p as [|c p]; [discriminate|]. cbn. intro H. apply Ascii.eqb_eq in H. subst. exists p. reflexivity.
Qed.
Lemma normal_abs_is ns : Forall name ns -> normal_abs (slash :: str_join ($"/") ns).
Proof. intro F. exists ns. split; [reflexivity|exact F]. Qed.
Lemma leads_names d ns : Forall name ns -> leads d (slash :: str_join ($"/") ns) = ns.
Proof.
  intro F. rewrite leads_abs by reflexivity. rewrite elements_slash. cbn [goto].
  destruct ns as [|a ns]; [reflexivity|]. rewrite elements_join by (try discriminate; apply names_noslash, F).
  apply (goto_names (a :: ns) F []).
Qed.

Theorem clean_abs p : is_abs p = true ->
  clean p = Some (slash :: str_join ($"/") (goto [] (elements p))) /\ Forall name (goto [] (elements p)).
Proof.
  intro A. destruct p as [|c p]; [discriminate|]. cbn [is_abs] in A. unfold clean. rewrite A.
  apply Ascii.eqb_eq in A. subst c.
  destruct (clean_loop_is true (S (List.length (slash :: p))) p 0 []) as (k & ns & O & F & R).
  { cbn [List.length]. lia. } { split; [constructor|reflexivity]. }
  rewrite fold_abs in F. apply pair_equal_spec in F. destruct F as [<- <-].
  change (clean_loop (S (List.length (slash :: p))) true 1 p [slash] = Some (rev (slash :: str_join ($"/") (goto [] (elements p))))) in R.
  rewrite R. rewrite elements_slash. split; [|apply O].
  change (goto [] ([] :: elements p)) with (goto [] (elements p)).
  destruct (rev (slash :: _)) eqn:E; [cbn in E; symmetry in E; apply app_cons_not_nil in E; contradiction|].
  rewrite <- E, rev_involutive. reflexivity.
Qed.
Theorem clean_rel p : is_abs p = false ->
  exists q, clean p = Some q /\ normal_rel q /\ is_abs q = false /\ forall d, goto d (elements q) = goto d (elements p).
Proof.
  intro A. destruct p as [|c p]; [exists ($"."); repeat split; left; reflexivity|].
  cbn [is_abs] in A. unfold clean. rewrite A.
  destruct (clean_loop_is false (S (List.length (c :: p))) (c :: p) 0 []) as (k & ns & O & F & R).
  { lia. } { split; [constructor|discriminate]. }
  change (clean_loop (S (List.length (c :: p))) false 0 (c :: p) [] = Some (rev (str_join ($"/") (ups k ++ ns)))) in R.
  rewrite R. destruct O as [On _]. cbn [snd] in On.
  assert (G : forall d, goto d (elements (c :: p)) = goto d (ups k ++ ns)).
  { intro d. rewrite goto_den by exact On. rewrite <- F, den_fold_rel. unfold den. cbn [fst snd Nat.iter nat_rect]. rewrite app_nil_r. reflexivity. }
  destruct (ups k ++ ns) as [|e l] eqn:El.
  - exists ($"."). split; [reflexivity|]. split; [left; reflexivity|]. split; [reflexivity|]. intro d. rewrite G. reflexivity.
  - exists (str_join ($"/") (e :: l)).
    assert (Ne : forall x, In x (e :: l) -> x <> []) by (intros x I; rewrite <- El in I; exact (parts_ne _ _ _ On I)).
    assert (Ns : Forall noslash (e :: l)) by (rewrite <- El; apply Forall_app; split; [apply ups_noslash|apply names_noslash, On]).
    assert (J : str_join ($"/") (e :: l) <> []) by (apply join_ne; [exact Ne|discriminate]).
    split; [|split; [|split]].
    + destruct (rev (str_join ($"/") (e :: l))) eqn:Er; [|rewrite <- Er, rev_involutive; reflexivity].
      exfalso. apply J. rewrite <- (rev_involutive (str_join _ _)), Er. reflexivity.
    + right. exists k, ns. split; [|split; [rewrite <- El; reflexivity|exact On]].
      destruct k, ns; cbn in *; try discriminate; lia.
    + inversion Ns as [|? ? N1 _]; subst. destruct e as [|c0 e]; [exfalso; apply (Ne []); [left; reflexivity|reflexivity]|].
      inversion N1; subst. destruct l; cbn; assumption.
    + intro d. rewrite elements_join by (try discriminate; exact Ns). rewrite G. reflexivity.
Qed.
Theorem clean_leads p : exists q, clean p = Some q /\ (is_abs q = is_abs p) /\ (forall d, leads d q = leads d p) /\
  (if is_abs p then normal_abs q else normal_rel q).
Proof.
  destruct (is_abs p) eqn:A.
  - destruct (clean_abs p A) as [C F]. eexists. split; [exact C|]. split; [reflexivity|]. split; [|apply normal_abs_is, F].
    intro d. rewrite leads_names by exact F. rewrite leads_abs by exact A. reflexivity.
  - destruct (clean_rel p A) as (q & C & N & Q & G). exists q. split; [exact C|]. split; [exact Q|]. split; [|exact N].
    intro d. rewrite !leads_rel by assumption. apply G.
Qed.
Lemma leads_app d w n : w <> [] -> is_abs n = false -> leads d (w ++ slash :: n) = leads (leads d w) n.
Proof.
  intros W N. assert (E : elements (w ++ slash :: n) = elements w ++ elements n).
  { clear W. induction w as [|c w IH]; [reflexivity|]. cbn [app]. destruct (is_slash c) eqn:C.
    - apply Ascii.eqb_eq in C. subst c. rewrite !elements_slash, IH. reflexivity.
    - rewrite !elements_cons by exact C. rewrite IH. pose proof (elements_ne w) as Nw. destruct (elements w); [congruence|reflexivity]. }
  rewrite (leads_rel _ n N). destruct (is_abs w) eqn:A.
  - rewrite !leads_abs, E, goto_app; [reflexivity|exact A|]. destruct w; [discriminate|exact A].
  - rewrite !leads_rel, E, goto_app; [reflexivity|exact A|]. destruct w; [congruence|exact A].
Qed.
Theorem join_leads w n : is_abs n = false -> exists q, join2 w n = Some q /\ (w <> [] -> is_abs q = is_abs w) /\
  (w = [] -> is_abs q = false) /\ (forall d, leads d q = leads (leads d w) n) /\ (q = [] \/ if is_abs w then normal_abs q else normal_rel q).
Proof.
  intro N. destruct w as [|c w].
  - destruct n as [|b n].
    + exists []. split; [reflexivity|]. split; [reflexivity|]. split; [reflexivity|]. split; [reflexivity|]. left. reflexivity.
    + destruct (clean_leads (b :: n)) as (q & C & A & L & Nm). exists q. split; [exact C|]. split; [congruence|].
      split; [intros _; congruence|]. split; [exact L|]. right. rewrite N in Nm. exact Nm.
  - destruct (clean_leads ((c :: w) ++ slash :: n)) as (q & C & A & L & Nm). exists q. split; [exact C|].
    split; [intros _; exact A|]. split; [congruence|]. split; [|right; exact Nm].
    intro d. rewrite L. apply leads_app; [discriminate|exact N].
Qed.

(** process.go resolveFile *)
Theorem resolve_abs w n : absolute n -> resolve_file w n = Some n.
Proof. intro A. apply absolute_is in A. unfold resolve_file. rewrite A. reflexivity. Qed.
Theorem resolve_leads w n : ~ absolute n -> exists q, resolve_file w n = Some q /\ (absolute q <-> absolute w) /\
  (forall d, leads d q = leads (leads d w) n) /\ (if is_abs w then normal_abs q else normal_rel q).
Proof.
  rewrite absolute_is. intro A. apply Bool.not_true_is_false in A. unfold resolve_file. rewrite A.
  destruct (join_leads w n A) as (r & J & A1 & A2 & L & _). rewrite J.
  destruct (clean_leads r) as (q & C & Aq & Lq & Nm). exists q. split; [exact C|].
  assert (E : is_abs r = is_abs w) by (destruct w; [rewrite A2 by reflexivity; reflexivity|apply A1; discriminate]).
  rewrite !absolute_is, Aq, E. split; [reflexivity|]. split; [intro d; rewrite Lq; apply L|]. rewrite <- E. exact Nm.
Qed.
