(** Proofs about row heights. *)
From Coq Require Import Lia Permutation.
From Verif Require Import GoStr Num Style Class Instr Engine Layout Grid Table Lines Proc EngineFacts TableView TableSpec TableFacts SpanFacts NormFacts WidthFacts.
Local Open Scope num_scope.

Section Height.
Context {F : Num} (env : Env F) {eng : Engine F}.
Implicit Types (h : heap F) (c : cid) (rows : list (trow F)).

(** Heaps that differ in heights only. *)
Definition hless (x : tcell F) : tcell F := with_height zero (with_minHeight zero x).
Definition hsim h h' : Prop := h_next h' = h_next h /\ forall c, hless (deref h' c) = hless (deref h c).
Lemma hsim_refl : forall h, hsim h h.
Proof. split; reflexivity. Qed.
Lemma hsim_sym : forall h1 h2, hsim h1 h2 -> hsim h2 h1.
Proof. intros h1 h2 [A1 A2]. split; [congruence|]. intro c. symmetry. apply A2. Qed.
Lemma hsim_trans : forall h1 h2 h3, hsim h1 h2 -> hsim h2 h3 -> hsim h1 h3.
Proof. intros h1 h2 h3 [A1 A2] [B1 B2]. split; [congruence|]. intro c. rewrite B2. apply A2. Qed.
Lemma hsim_sized : forall h h', hsim h h' -> sized h h'.
Proof.
  intros h h' [A1 A2]. split; [exact A1|]. intro c. change (with_width zero (hless (deref h' c)) = with_width zero (hless (deref h c))).
  rewrite A2. reflexivity.
Qed.
Lemma hsim_field : forall A (f : tcell F -> A), (forall x, f (hless x) = f x) -> forall h h' c, hsim h h' -> f (deref h' c) = f (deref h c).
Proof. intros A f Hf h h' c [_ H]. rewrite <- (Hf (deref h' c)), <- (Hf (deref h c)), H. reflexivity. Qed.

(** Setting a minimum height in several cells. *)
Definition set_min (v : F) (l : list cid) h : heap F := fold_left (fun h sc => update sc (with_minHeight v) h) l h.
Lemma set_min_spec : forall v l h, hsim h (set_min v l h) /\
  (forall c, In c l -> c_minHeight (deref (set_min v l h) c) = v) /\
  (forall c, ~ In c l -> deref (set_min v l h) c = deref h c).
Proof.
  intros v. induction l as [|x l IH]; intros h.
  - split; [apply hsim_refl|]. split; [contradiction|reflexivity].
  - cbn [set_min fold_left]. fold (set_min v l (update x (with_minHeight v) h)). destruct (IH (update x (with_minHeight v) h)) as (I1 & I2 & I3).
    split.
    { eapply hsim_trans; [|exact I1]. split; [reflexivity|]. intro c. destruct (Nat.eq_dec c x) as [->|Hne];
      [rewrite deref_update_eq|rewrite deref_update_ne by exact Hne]; reflexivity. }
    split.
    + intros c [->|Hc]; [|apply I2; exact Hc]. destruct (in_dec Nat.eq_dec c l) as [Hc|Hc]; [apply I2; exact Hc|].
      rewrite I3 by exact Hc. rewrite deref_update_eq. reflexivity.
    + intros c Hc. simpl in Hc. rewrite I3 by tauto. apply deref_update_ne. intuition.
Qed.

(** What measuring one cell assigns. *)
Definition share (x : tcell F) (th : F) : F :=
  (th + QTop (Padding (SBox (c_sty x))) + QBottom (Padding (SBox (c_sty x)))) / of_Z (1 + Z.of_nat (List.length (c_spansRows x))).
Definition own (x : tcell F) : bool := zero <? Height (SDim (c_sty x)).
Definition assign (ms : list (cid * F)) h c : heap F :=
  if own (deref h c) then set_min (Height (SDim (c_sty (deref h c)))) [c] h
  else match find (fun m => Nat.eqb (fst m) c) ms with
       | Some (_, th) => set_min (share (deref h c) th) (c :: c_spansRows (deref h c)) h
       | None => h
       end.

Lemma cell_dim_width : forall h h' c, hsim h h' -> fst (cell_dim h' c) = fst (cell_dim h c).
Proof.
  intros h h' c Hs. unfold cell_dim. cbn [fst]. rewrite (hsim_field _ (@c_spansCols F) (fun _ => eq_refl) h h' c Hs).
  rewrite (hsim_field _ (@c_width F) (fun _ => eq_refl) h h' c Hs). generalize (c_width (deref h c)). 
  induction (c_spansCols (deref h c)) as [|p l IH]; intro w; [reflexivity|]. cbn [fold_left].
  rewrite (hsim_field _ (@c_width F) (fun _ => eq_refl) h h' p Hs). apply IH.
Qed.
Lemma measure_hsim : forall h h' cs (s : PS F eng), hsim h h' -> measure env h' cs s = measure env h cs s.
Proof.
  intros h h' cs. induction cs as [|c cs IH]; intros s Hs; [reflexivity|]. cbn [measure].
  rewrite (hsim_field _ (@c_sty F) (fun _ => eq_refl) h h' c Hs), (hsim_field _ (@c_iss F) (fun _ => eq_refl) h h' c Hs).
  unfold text_room. rewrite (cell_dim_width h h' c Hs), (hsim_field _ (@c_sty F) (fun _ => eq_refl) h h' c Hs).
  destruct (zero <? _); [apply IH; exact Hs|]. unfold sbind. destruct (textHeightFnc _ _ _ _ _ _ s) as [th s1].
  rewrite (IH s1 Hs). reflexivity.
Qed.
Lemma authored_hsim : forall h h' c, hsim h h' -> authored h' c = authored h c.
Proof.
  intros h h' c Hs. unfold authored. rewrite (hsim_field _ (@c_spannedBy F) (fun _ => eq_refl) h h' c Hs), (hsim_field _ (@c_zero F) (fun _ => eq_refl) h h' c Hs). reflexivity.
Qed.
Lemma filter_authored_hsim : forall h h' l, hsim h h' -> filter (authored h') l = filter (authored h) l.
Proof. intros h h' l Hs. apply filter_ext_in'. intros x _. apply authored_hsim. exact Hs. Qed.

Lemma assignCellMinHeight_eq : forall c h (s : PS F eng), assignCellMinHeight env c h s =
  if authored h c then
    if own (deref h c) then (set_min (Height (SDim (c_sty (deref h c)))) [c] h, s)
    else let '(th, s1) := textHeightFnc (e_mut env) (e_hyph env) (c_sty (deref h c)) (c_iss (deref h c)) (text_room h c) (c_sty (deref h c)) s in
         (set_min (share (deref h c) th) (c :: c_spansRows (deref h c)) h, s1)
  else (h, s).
Proof.
  intros. unfold assignCellMinHeight, authored. destruct (c_spannedBy (deref h c)) as [o|]; [reflexivity|].
  cbn [orb]. destruct (c_zero (deref h c)); [reflexivity|]. cbn [negb]. unfold own.
  destruct (zero <? Height (SDim (c_sty (deref h c)))); [reflexivity|].
  unfold sbind, p_textHeightFnc, text_room, cell_dim. cbn [fst].
  destruct (textHeightFnc _ _ _ _ _ _ s) as [th s1]. reflexivity.
Qed.
Lemma measure_keys : forall h cs (s : PS F eng) c th, In (c, th) (fst (measure env h cs s)) -> In c cs.
Proof.
  intros h. induction cs as [|x cs IH]; intros s c th H; [contradiction|]. cbn [measure] in H.
  destruct (zero <? _); [right; exact (IH s c th H)|]. unfold sbind in H.
  destruct (textHeightFnc _ _ _ _ _ _ s) as [th0 s1]. specialize (IH s1 c th). destruct (measure env h cs s1) as [rest s2]. cbn [fst] in *.
  destruct H as [H|H]; [left; congruence|right; exact (IH H)].
Qed.
Lemma measure_nodup : forall h cs (s : PS F eng), NoDup cs -> NoDup (map fst (fst (measure env h cs s))).
Proof.
  intros h. induction cs as [|x cs IH]; intros s ND; [constructor|]. inversion ND; subst. cbn [measure].
  destruct (zero <? _); [exact (IH s H2)|]. unfold sbind.
  destruct (textHeightFnc _ _ _ _ _ _ s) as [th0 s1]. specialize (IH s1 H2). assert (K := measure_keys h cs s1).
  destruct (measure env h cs s1) as [rest s2]. cbn [fst map] in *. constructor; [|exact IH].
  intro G. apply in_map_iff in G as ([c th] & G1 & G2). apply H1. simpl in G1. subst c. exact (K x th G2).
Qed.
Lemma measure_own : forall h cs (s : PS F eng) c th, In (c, th) (fst (measure env h cs s)) -> own (deref h c) = false.
Proof.
  intros h. induction cs as [|x cs IH]; intros s c th H; [contradiction|]. cbn [measure] in H.
  destruct (zero <? Height (SDim (c_sty (deref h x)))) eqn:E; [exact (IH s c th H)|]. unfold sbind in H.
  destruct (textHeightFnc _ _ _ _ _ _ s) as [th0 s1]. specialize (IH s1 c th). destruct (measure env h cs s1) as [rest s2]. cbn [fst] in *.
  destruct H as [H|H]; [injection H as <- <-; exact E|exact (IH H)].
Qed.
Lemma measure_complete : forall h cs (s : PS F eng) c, In c cs -> own (deref h c) = false -> exists th, In (c, th) (fst (measure env h cs s)).
Proof.
  intros h. induction cs as [|x cs IH]; intros s c Hc Ho; [contradiction|]. cbn [measure].
  destruct Hc as [->|Hc].
  - unfold own in Ho. rewrite Ho. unfold sbind. destruct (textHeightFnc _ _ _ _ _ _ s) as [th s1]. destruct (measure env h cs s1) as [rest s2].
    exists th. left. reflexivity.
  - destruct (zero <? _); [exact (IH s c Hc Ho)|]. unfold sbind. destruct (textHeightFnc _ _ _ _ _ _ s) as [th0 s1].
    destruct (IH s1 c Hc Ho) as [th Hth]. destruct (measure env h cs s1) as [rest s2]. exists th. right. exact Hth.
Qed.

(** [fixed]: the minimum heights the cells of [l] must end up with. *)
Definition targets h c : list cid := if own (deref h c) then [c] else c :: c_spansRows (deref h c).
Lemma min_heights_spec : forall l h (s : PS F eng) h' s', NoDup l ->
  (forall c c' x, In c l -> In c' l -> authored h c = true -> authored h c' = true -> In x (targets h c) -> In x (targets h c') -> c = c') ->
  min_heights env l h s = (h', s') ->
  let ms := measure env h (filter (authored h) l) s in
  snd ms = s' /\ hsim h h' /\
  (forall x, (forall c, In c l -> authored h c = true -> ~ In x (targets h c)) -> deref h' x = deref h x) /\
  (forall c, In c l -> authored h c = true -> own (deref h c) = true -> c_minHeight (deref h' c) = Height (SDim (c_sty (deref h c)))) /\
  (forall c th x, In (c, th) (fst ms) -> In x (targets h c) -> c_minHeight (deref h' x) = share (deref h c) th).
Proof.
  induction l as [|c l IH]; intros h s h' s' ND Dis E.
  - injection E as <- <-. cbn. repeat split; auto; contradiction.
  - inversion ND as [|? ? ND1 ND2]; subst. cbn [min_heights] in E. unfold sbind in E. rewrite assignCellMinHeight_eq in E. cbn [filter].
    destruct (authored h c) eqn:Au.
    2:{ destruct (IH h s h' s' ND2) as (I1 & I2 & I3 & I4 & I5); [|exact E|].
        { intros a b x Ha Hb. apply Dis; right; assumption. }
        split; [exact I1|]. split; [exact I2|]. split; [|split; [|exact I5]].
        - intros x Hx. apply I3. intros a Ha. apply Hx. right. exact Ha.
        - intros a [<-|Ha]; [congruence|]. apply I4. exact Ha. }
    cbn [measure]. fold (own (deref h c)).
    assert (Step : forall h1 s1 v, h1 = set_min v (targets h c) h -> min_heights env l h1 s1 = (h', s') ->
      let ms := measure env h (filter (authored h) l) s1 in
      snd ms = s' /\ hsim h h' /\
      (forall x, (forall a, In a (c :: l) -> authored h a = true -> ~ In x (targets h a)) -> deref h' x = deref h x) /\
      (forall x, In x (targets h c) -> c_minHeight (deref h' x) = v) /\
      (forall a, In a l -> authored h a = true -> own (deref h a) = true -> c_minHeight (deref h' a) = Height (SDim (c_sty (deref h a)))) /\
      (forall a th x, In (a, th) (fst ms) -> In x (targets h a) -> c_minHeight (deref h' x) = share (deref h a) th)).
    { intros h1 s1 v Eh1 El. destruct (set_min_spec v (targets h c) h) as (M1 & M2 & M3). rewrite <- Eh1 in M1, M2, M3.
      assert (T : forall a, targets h1 a = targets h a).
      { intro a. unfold targets, own. rewrite (hsim_field _ (@c_sty F) (fun _ => eq_refl) h h1 a M1), (hsim_field _ (@c_spansRows F) (fun _ => eq_refl) h h1 a M1). reflexivity. }
      destruct (IH h1 s1 h' s' ND2) as (I1 & I2 & I3 & I4 & I5); [|exact El|].
      { intros a b x Ha Hb Aa Ab. rewrite !T. rewrite (authored_hsim h h1 a M1) in Aa. rewrite (authored_hsim h h1 b M1) in Ab. apply Dis; auto; right; assumption. }
      rewrite (filter_authored_hsim h h1 l M1), (measure_hsim h h1 _ s1 M1) in I1, I5.
      cbv zeta. split; [exact I1|]. split; [eapply hsim_trans; eassumption|]. split; [|split; [|split]].
      - intros x Hx. rewrite I3; [apply M3; apply Hx; [left; reflexivity|exact Au]|].
        intros a Ha Aa. rewrite T. rewrite (authored_hsim h h1 _ M1) in Aa. apply Hx; [right; exact Ha|exact Aa].
      - intros x Hx. rewrite I3; [apply M2; exact Hx|].
        intros a Ha Aa. rewrite T. rewrite (authored_hsim h h1 _ M1) in Aa. intro G.
        assert (c = a) by (apply (Dis c a x); auto; [left; reflexivity|right; exact Ha]). subst a. contradiction.
      - intros a Ha Aa Oa.
        assert (Q1 : own (deref h1 a) = true) by (unfold own in *; rewrite (hsim_field _ (@c_sty F) (fun _ => eq_refl) h h1 a M1); exact Oa).
        rewrite <- (hsim_field _ (@c_sty F) (fun _ => eq_refl) h h1 a M1). apply I4; [exact Ha|rewrite (authored_hsim h h1 _ M1); exact Aa|exact Q1].
      - intros a th x Ha Hx. rewrite (I5 a th x Ha) by (rewrite T; exact Hx). unfold share.
        rewrite (hsim_field _ (@c_sty F) (fun _ => eq_refl) h h1 a M1), (hsim_field _ (@c_spansRows F) (fun _ => eq_refl) h h1 a M1). reflexivity. }
    assert (Tc : targets h c = if own (deref h c) then [c] else c :: c_spansRows (deref h c)) by reflexivity.
    destruct (own (deref h c)) eqn:Oc.
    +
      destruct (Step _ s (Height (SDim (c_sty (deref h c)))) (f_equal (fun l => set_min _ l h) (eq_sym Tc)) E) as (S1 & S2 & S3 & S4 & S5 & S6).
      cbv zeta in *. split; [exact S1|]. split; [exact S2|]. split; [exact S3|]. split; [|exact S6].
      intros a [<-|Ha] Aa Oa; [apply S4; rewrite Tc; left; reflexivity|apply S5; assumption].
    + unfold sbind.
      destruct (textHeightFnc (e_mut env) (e_hyph env) (c_sty (deref h c)) (c_iss (deref h c)) (text_room h c) (c_sty (deref h c)) s) as [th s1].
      destruct (Step _ s1 (share (deref h c) th) (f_equal (fun l => set_min _ l h) (eq_sym Tc)) E) as (S1 & S2 & S3 & S4 & S5 & S6).
      cbv zeta in *. destruct (measure env h (filter (authored h) l) s1) as [rest s2]. cbn [fst snd] in *. cbn.
      split; [exact S1|]. split; [exact S2|]. split; [exact S3|]. split.
      * intros a [<-|Ha] Aa Oa; [congruence|apply S5; assumption].
      * intros a t x [Ha|Ha] Hx; [injection Ha as <- <-; apply S4; exact Hx|apply (S6 a t x Ha Hx)].
Qed.
Lemma min_heights_app : forall l1 l2 h (s : PS F eng), min_heights env (l1 ++ l2) h s = let '(h1, s1) := min_heights env l1 h s in min_heights env l2 h1 s1.
Proof.
  induction l1 as [|c l1 IH]; intros l2 h s; [reflexivity|]. cbn [app min_heights]. unfold sbind.
  destruct (assignCellMinHeight env c h s) as [h1 s1]. apply IH.
Qed.
Lemma min_heights_rows_flat : forall rows h (s : PS F eng), min_heights_rows env rows h s = min_heights env (flat_map r_cells rows) h s.
Proof.
  induction rows as [|row rows IH]; intros h s; [reflexivity|]. cbn [min_heights_rows flat_map]. rewrite min_heights_app. unfold sbind.
  destruct (min_heights env (r_cells row) h s) as [h1 s1]. apply IH.
Qed.

(** The heights of rows and cells. *)
Definition upd_h (v : F) l h := fold_left (fun h c => update c (with_height v) h) l h.
Lemma upd_h_spec : forall v l h, 
  h_next (upd_h v l h) = h_next h /\
  (forall c, In c l -> deref (upd_h v l h) c = with_height v (deref h c)) /\ (forall c, ~ In c l -> deref (upd_h v l h) c = deref h c).
Proof.
  intros v. induction l as [|x l IH]; intros h.
  - repeat split; auto. contradiction.
  - change (upd_h v (x :: l) h) with (upd_h v l (update x (with_height v) h)). destruct (IH (update x (with_height v) h)) as (I1 & I2 & I3).
    split; [exact I1|]. split.
    + intros c Hc. destruct (in_dec Nat.eq_dec c l) as [G|G].
      * rewrite I2 by exact G. destruct (Nat.eq_dec c x) as [->|Hne]; [rewrite deref_update_eq; reflexivity|rewrite deref_update_ne by exact Hne; reflexivity].
      * rewrite I3 by exact G. destruct Hc as [->|Hc]; [apply deref_update_eq|contradiction].
    + intros c Hc. simpl in Hc. rewrite I3 by tauto. apply deref_update_ne. intuition.
Qed.
Lemma set_heights_spec : forall rows h, NoDup (flat_map r_cells rows) ->
  hsim h (set_heights rows h) /\ 
  (forall row c, In row rows -> In c (r_cells row) -> deref (set_heights rows h) c = with_height (r_height row) (deref h c)) /\
  (forall c, ~ In c (flat_map r_cells rows) -> deref (set_heights rows h) c = deref h c).
Proof.
  induction rows as [|row rows IH]; intros h ND.
  - split; [apply hsim_refl|]. split; [contradiction|reflexivity].
  - cbn [flat_map] in *. apply NoDup_app_iff in ND as (N1 & N2 & N3).
    change (set_heights (row :: rows) h) with (set_heights rows (upd_h (r_height row) (r_cells row) h)).
    destruct (upd_h_spec (r_height row) (r_cells row) h) as (U1 & U2 & U3).
    destruct (IH (upd_h (r_height row) (r_cells row) h) N2) as (I1 & I2 & I3).
    split.
    { eapply hsim_trans; [|exact I1]. split; [exact U1|]. intro c. destruct (in_dec Nat.eq_dec c (r_cells row)) as [G|G];
      [rewrite U2 by exact G|rewrite U3 by exact G]; reflexivity. }
    split.
    + intros r c [<-|Hr] Hc.
      * rewrite I3 by (apply N3; exact Hc). apply U2. exact Hc.
      * rewrite (I2 r c Hr Hc). rewrite U3; [reflexivity|]. intro G. apply (N3 c G). apply in_flat_map. exists r. auto.
    + intros c Hc. rewrite in_app_iff in Hc. rewrite I3 by tauto. apply U3. tauto.
Qed.
End Height.
