From Coq Require Import Permutation Lia Sorting.Sorted.
From Verif Require Import GoStr GoStrFacts Style StyleFacts Grid LayoutSpec.

Fixpoint ofold {A B} (f : A -> B -> option A) (a : A) (l : list B) : option A :=
  match l with
  | [] => Some a
  | b :: l' => match f a b with Some a' => ofold f a' l' | None => None end
  end.
Lemma ofold_app {A B} (f : A -> B -> option A) l1 : forall a l2,
  ofold f a (l1 ++ l2) = match ofold f a l1 with Some a' => ofold f a' l2 | None => None end.
Proof. induction l1 as [|b l1 IH]; intros a l2; simpl; [reflexivity|]. destruct (f a b); [apply IH|reflexivity]. Qed.

(** ** A single box *)
Fixpoint shape (t l : nat) (ns : list nat) : list areaRow :=
  match ns with [] => [] | n :: ns' => mkAreaRow t (seq l n) :: shape (S t) l ns' end.
Fixpoint shape_pos (t l : nat) (ns : list nat) : list (nat * nat) :=
  match ns with [] => [] | n :: ns' => map (fun c => (t, c)) (seq l n) ++ shape_pos (S t) l ns' end.
Definition maxl (ns : list nat) : nat := fold_right Nat.max 0 ns.
Definition boxof (t l : nat) (ns : list nat) : gridBox :=
  mkGridBox (shape t l ns) l t (l + maxl ns - 1) (t + List.length ns - 1).
Definition add1 (b : gridBox) (p : nat * nat) : option gridBox := box_add b (fst p) (snd p).

Lemma shape_app t l ns ms : shape t l (ns ++ ms) = shape t l ns ++ shape (t + List.length ns) l ms.
Proof.
  revert t. induction ns as [|n ns IH]; intros t; simpl; [rewrite Nat.add_0_r; reflexivity|].
  rewrite IH. replace (S t + List.length ns) with (t + S (List.length ns)) by lia. reflexivity.
Qed.
Lemma shape_pos_app t l ns ms : shape_pos t l (ns ++ ms) = shape_pos t l ns ++ shape_pos (t + List.length ns) l ms.
Proof.
  revert t. induction ns as [|n ns IH]; intros t; simpl; [rewrite Nat.add_0_r; reflexivity|].
  rewrite IH, <- app_assoc. replace (S t + List.length ns) with (t + S (List.length ns)) by lia. reflexivity.
Qed.
Lemma maxl_app ns ms : maxl (ns ++ ms) = Nat.max (maxl ns) (maxl ms).
Proof. induction ns as [|n ns IH]; simpl; [reflexivity|]. unfold maxl in *. simpl. rewrite IH. lia. Qed.
Lemma last_seq l n : 1 <= n -> last (seq l n) 0 = l + n - 1.
Proof.
  destruct n as [|n]; intros H; [lia|]. replace (S n) with (n + 1) by lia. rewrite seq_app. cbn [seq]. rewrite last_last. lia.
Qed.
Lemma add_to_row_skip t l ns i j rest : t + List.length ns <= i ->
  add_to_row i j (shape t l ns ++ rest) =
  match add_to_row i j rest with Some (Some r) => Some (Some (shape t l ns ++ r)) | x => x end.
Proof.
  revert t. induction ns as [|n ns IH]; intros t H; simpl.
  - destruct (add_to_row i j rest) as [[?|]|]; reflexivity.
  - simpl in H. rewrite (proj2 (Nat.eqb_neq t i)) by lia. rewrite IH by lia.
    destruct (add_to_row i j rest) as [[?|]|]; reflexivity.
Qed.
Lemma last_shape t l ns n d : last (shape t l (ns ++ [n])) d = mkAreaRow (t + List.length ns) (seq l n).
Proof. rewrite shape_app. simpl. apply last_last. Qed.

Lemma add_first i j : box_add empty_box i j = Some (boxof i j [1]).
Proof. unfold box_add, boxof, empty_box. simpl. do 2 f_equal; lia. Qed.
Lemma add_same t l ns n j : 1 <= n ->
  box_add (boxof t l (ns ++ [n])) (t + List.length ns) j =
  if Nat.eqb j (l + n) then Some (boxof t l (ns ++ [n + 1])) else None.
Proof.
  intros Hn. unfold box_add, boxof at 1. cbn [gb_rows]. rewrite shape_app, add_to_row_skip by lia. simpl.
  rewrite Nat.eqb_refl, last_seq by exact Hn. replace (l + n - 1 + 1) with (l + n) by lia.
  destruct (Nat.eqb_spec j (l + n)) as [->|Hj]; [|reflexivity].
  cbn [boxof gb_left gb_top gb_right gb_bottom]. unfold boxof. f_equal. rewrite shape_app, !maxl_app, !app_length. simpl.
  replace (seq l (n + 1)) with (seq l n ++ [l + n]) by (rewrite seq_app; reflexivity).
  f_equal. destruct (Nat.ltb_spec (l + Nat.max (maxl ns) (Nat.max n 0) - 1) (l + n)); lia.
Qed.
Lemma add_next t l ns n i j : 1 <= n -> t + List.length ns < i ->
  box_add (boxof t l (ns ++ [n])) i j =
  if Nat.eqb i (t + List.length ns + 1) && Nat.eqb j l then Some (boxof t l (ns ++ [n; 1])) else None.
Proof.
  intros Hn Hi. unfold box_add, boxof at 1. cbn [gb_rows].
  assert (E : add_to_row i j (shape t l (ns ++ [n])) = None).
  { rewrite <- (app_nil_r (shape t l (ns ++ [n]))), add_to_row_skip; [reflexivity|]. rewrite app_length. simpl. lia. }
  rewrite E. cbn [gb_rows boxof gb_left gb_top gb_right gb_bottom].
  destruct (shape t l (ns ++ [n])) as [|r0 rs] eqn:Es.
  { rewrite shape_app in Es. destruct (shape t l ns); discriminate Es. }
  rewrite <- Es, last_shape. cbn [ar_idx].
  destruct (Nat.eqb_spec i (t + List.length ns + 1)) as [->|Hne]; [|reflexivity]. cbn [negb andb].
  destruct (Nat.eqb_spec j l) as [->|Hj]; [|reflexivity]. cbn [negb]. f_equal. unfold boxof.
  replace (ns ++ [n; 1]) with ((ns ++ [n]) ++ [1]) by (rewrite <- app_assoc; reflexivity).
  rewrite (shape_app t l (ns ++ [n]) [1]), !maxl_app, !app_length. simpl.
  f_equal; [|lia|lia]. do 2 f_equal. f_equal. lia.
Qed.

(** Positions in reading order. *)
Definition lex (p q : nat * nat) : Prop := fst p < fst q \/ (fst p = fst q /\ snd p < snd q).
Lemma lex_trans p q r : lex p q -> lex q r -> lex p r.
Proof. unfold lex. lia. Qed.
Lemma lex_irrefl p : ~ lex p p.
Proof. unfold lex. lia. Qed.

Lemma shape_pos_in t l ns i j : In (i, j) (shape_pos t l ns) <-> exists k, i = t + k /\ k < List.length ns /\ l <= j < l + nth k ns 0.
Proof.
  revert t. induction ns as [|n ns IH]; intros t; simpl.
  - split; [intros []|intros (k & _ & H & _); lia].
  - rewrite in_app_iff, in_map_iff, IH. split.
    + intros [(c & E & Hc)|(k & -> & Hk & Hj)].
      * injection E as -> ->. apply in_seq in Hc. exists 0. lia.
      * exists (S k). simpl. lia.
    + intros (k & -> & Hk & Hj). destruct k as [|k].
      * left. exists j. rewrite Nat.add_0_r. split; [reflexivity|]. apply in_seq. simpl in Hj. lia.
      * right. exists k. simpl in Hj. lia.
Qed.
Lemma shape_pos_sorted t l ns : StronglySorted lex (shape_pos t l ns).
Proof.
  revert t. induction ns as [|n ns IH]; intros t; simpl; [constructor|].
  assert (Happ : forall l1 l2, StronglySorted lex l1 -> StronglySorted lex l2 -> (forall a b, In a l1 -> In b l2 -> lex a b) ->
      StronglySorted lex (l1 ++ l2)).
  { induction l1 as [|a l1 IH1]; intros l2 H1 H2 H; simpl; [exact H2|]. inversion H1; subst. constructor.
    - apply IH1; auto. intros. apply H; [right|]; assumption.
    - apply Forall_app. split; [assumption|]. apply Forall_forall. intros b Hb. apply H; [left; reflexivity|exact Hb]. }
  apply Happ.
  - generalize l. induction n as [|n IHn]; intros l0; simpl; [constructor|]. constructor; [apply IHn|].
    apply Forall_forall. intros p Hp. apply in_map_iff in Hp as (c & <- & Hc). apply in_seq in Hc. unfold lex. simpl. lia.
  - apply IH.
  - intros a [i j] Ha Hb. apply in_map_iff in Ha as (c & <- & Hc). apply shape_pos_in in Hb as (k & -> & _). left. simpl. lia.
Qed.

Lemma sorted_snoc l p : StronglySorted lex (l ++ [p]) -> StronglySorted lex l /\ Forall (fun q => lex q p) l.
Proof.
  induction l as [|a l IH]; intros H; [split; constructor|]. simpl in H. inversion H; subst.
  destruct (IH H2) as [Hs Hf]. apply Forall_app in H3 as [H3 H4]. inversion H4; subst. split; constructor; assumption.
Qed.

(** After reading sorted positions the box is a left-aligned stack of rows. *)
Lemma fold_shape ps : StronglySorted lex ps -> forall b, ofold add1 empty_box ps = Some b ->
  (ps = [] /\ b = empty_box) \/
  exists t l ns, ns <> [] /\ Forall (fun n => 1 <= n) ns /\ ps = shape_pos t l ns /\ b = boxof t l ns.
Proof.
  induction ps as [|[i j] ps IH] using rev_ind; intros Hs b H.
  - left. split; [reflexivity|]. injection H as <-. reflexivity.
  - right. apply sorted_snoc in Hs as [Hs Hlt]. rewrite ofold_app in H.
    destruct (ofold add1 empty_box ps) as [b0|] eqn:E; [|discriminate]. simpl in H. unfold add1 in H. simpl in H.
    destruct (box_add b0 i j) as [b1|] eqn:Ea; [|discriminate]. injection H as <-.
    destruct (IH Hs b0 eq_refl) as [[-> ->]|(t & l & ns & Hne & Hpos & -> & ->)].
    + rewrite add_first in Ea. injection Ea as <-. exists i, j, [1].
      split; [discriminate|]. split; [repeat constructor|]. split; reflexivity.
    + destruct (exists_last Hne) as (ns' & n & ->). apply Forall_app in Hpos as [Hpos' Hn]. inversion Hn; subst.
      assert (Hlast : In (t + List.length ns', l + n - 1) (shape_pos t l (ns' ++ [n]))).
      { apply shape_pos_in. exists (List.length ns'). rewrite app_length, app_nth2, Nat.sub_diag by lia. simpl. lia. }
      rewrite Forall_forall in Hlt. specialize (Hlt _ Hlast). unfold lex in Hlt. simpl in Hlt.
      destruct (Nat.eq_dec i (t + List.length ns')) as [->|Hi].
      * rewrite add_same in Ea by assumption. destruct (Nat.eqb_spec j (l + n)) as [->|]; [|discriminate]. injection Ea as <-.
        exists t, l, (ns' ++ [n + 1]). split; [destruct ns'; discriminate|].
        split; [apply Forall_app; split; [assumption|repeat constructor; lia]|]. split; [|reflexivity].
        rewrite !shape_pos_app, <- app_assoc. f_equal. simpl. rewrite !app_nil_r, seq_app, map_app. reflexivity.
      * rewrite add_next in Ea by lia.
        destruct (Nat.eqb_spec i (t + List.length ns' + 1)) as [->|]; [|discriminate].
        destruct (Nat.eqb_spec j l) as [->|]; [|discriminate]. injection Ea as <-.
        exists t, l, (ns' ++ [n; 1]). split; [destruct ns'; discriminate|].
        split; [apply Forall_app; split; [assumption|repeat constructor; lia]|]. split; [|reflexivity].
        replace (ns' ++ [n; 1]) with ((ns' ++ [n]) ++ [1]) by (rewrite <- app_assoc; reflexivity).
        rewrite (shape_pos_app t l (ns' ++ [n]) [1]), app_length. simpl.
        replace (t + (List.length ns' + 1)) with (t + List.length ns' + 1) by lia. reflexivity.
Qed.
(** And every such stack is accepted position by position. *)
Lemma fold_row t l ns n m : 1 <= n ->
  ofold add1 (boxof t l (ns ++ [n])) (map (fun c => (t + List.length ns, c)) (seq (l + n) m)) = Some (boxof t l (ns ++ [n + m])).
Proof.
  revert n. induction m as [|m IH]; intros n Hn; simpl; [rewrite Nat.add_0_r; reflexivity|].
  unfold add1 at 1. simpl. rewrite add_same, Nat.eqb_refl by exact Hn. replace (S (l + n)) with (l + (n + 1)) by lia.
  rewrite IH by lia. do 4 f_equal. lia.
Qed.
Lemma fold_stack t l ns : ns <> [] -> Forall (fun n => 1 <= n) ns -> ofold add1 empty_box (shape_pos t l ns) = Some (boxof t l ns).
Proof.
  induction ns as [|n ns IH] using rev_ind; intros Hne Hpos; [congruence|].
  apply Forall_app in Hpos as [Hpos Hn]. inversion Hn; subst. destruct n as [|n]; [lia|].
  rewrite shape_pos_app, ofold_app. cbn [shape_pos]. rewrite app_nil_r.
  destruct ns as [|n0 ns0].
  - cbn [shape_pos app List.length seq map ofold]. unfold add1 at 1. cbn [fst snd]. rewrite Nat.add_0_r, add_first.
    pose proof (fold_row t l [] 1 n ltac:(lia)) as Hr. simpl in Hr. rewrite Nat.add_0_r, Nat.add_1_r in Hr. rewrite Hr. reflexivity.
  - rewrite IH by (try discriminate; assumption). set (ns := n0 :: ns0) in *.
    destruct (@exists_last _ ns ltac:(discriminate)) as (ns' & k & E). rewrite E in *. clearbody ns.
    apply Forall_app in Hpos as [_ Hk]. inversion Hk; subst.
    cbn [seq map ofold]. unfold add1 at 1. cbn [fst snd]. rewrite add_next by (rewrite ?app_length; simpl; lia).
    rewrite (proj2 (Nat.eqb_eq (t + List.length (ns' ++ [k])) (t + List.length ns' + 1))) by (rewrite app_length; simpl; lia).
    rewrite Nat.eqb_refl. cbn [andb].
    pose proof (fold_row t l (ns' ++ [k]) 1 n ltac:(lia)) as Hr.
    rewrite <- app_assoc in Hr. simpl in Hr. rewrite Nat.add_1_r in Hr. rewrite Hr. rewrite <- app_assoc. reflexivity.
Qed.

(** ** All boxes *)
Fixpoint enum_row (ir ia : nat) (areas : list bytes) : list ((nat * nat) * bytes) :=
  match areas with [] => [] | a :: l => ((ir, ia), a) :: enum_row ir (ia + 1) l end.
Fixpoint enum (ir : nat) (rows : list (list bytes)) : list ((nat * nat) * bytes) :=
  match rows with [] => [] | r :: l => enum_row ir 0 r ++ enum (ir + 1) l end.
Definition getb (a : bytes) (bs : boxes) : gridBox := match map_get a bs with Some b => b | None => empty_box end.
Definition step (bs : boxes) (x : (nat * nat) * bytes) : option boxes :=
  match add1 (getb (snd x) bs) (fst x) with Some b => Some (map_set (snd x) b bs) | None => None end.
Lemma add_areas_fold ir areas : forall ia bs, add_areas ir ia areas bs = ofold step bs (enum_row ir ia areas).
Proof.
  induction areas as [|a l IH]; intros ia bs; simpl; [reflexivity|]. unfold step at 1, add1. simpl.
  fold (getb a bs). destruct (box_add (getb a bs) ir ia); [apply IH|reflexivity].
Qed.
Lemma add_rows_fold rows : forall ir bs, add_rows ir rows bs = ofold step bs (enum ir rows).
Proof.
  induction rows as [|r l IH]; intros ir bs; simpl; [reflexivity|]. rewrite ofold_app, add_areas_fold.
  destruct (ofold step bs (enum_row ir 0 r)); [apply IH|reflexivity].
Qed.
Definition pos (a : bytes) (l : list ((nat * nat) * bytes)) : list (nat * nat) :=
  map fst (filter (fun x => beqb (snd x) a) l).
Lemma pos_cons a p b l : pos a ((p, b) :: l) = if beqb b a then p :: pos a l else pos a l.
Proof. unfold pos. simpl. destruct (beqb b a); reflexivity. Qed.
Lemma getb_set a b bs a' : getb a' (map_set a b bs) = if beqb a a' then b else getb a' bs.
Proof. unfold getb. rewrite map_get_set. destruct (beqb a a'); reflexivity. Qed.

Lemma fold_ok l : forall bs, (forall a, ofold add1 (getb a bs) (pos a l) <> None) ->
  exists bs', ofold step bs l = Some bs' /\ (NoDup (keys bs) -> NoDup (keys bs')) /\
    forall a, ofold add1 (getb a bs) (pos a l) = Some (getb a bs') /\
      (pos a l = [] -> map_get a bs' = map_get a bs) /\ (pos a l <> [] -> map_get a bs' <> None).
Proof.
  induction l as [|[p a0] l IH]; intros bs H; simpl.
  - exists bs. split; [reflexivity|]. split; [auto|]. intros a. split; [reflexivity|]. split; [reflexivity|]. intros Hx. exfalso; apply Hx; reflexivity.
  - unfold step at 1. simpl. pose proof (H a0) as H0. rewrite pos_cons, beqb_refl in H0. simpl in H0.
    destruct (add1 (getb a0 bs) p) as [b|] eqn:Ea; [|congruence].
    destruct (IH (map_set a0 b bs)) as (bs' & Hf & Hnd & Hall).
    { intros a. rewrite getb_set. specialize (H a). rewrite pos_cons in H. destruct (beqb a0 a) eqn:E.
      - apply beqb_eq in E. subst a. simpl in H. rewrite Ea in H. exact H.
      - exact H. }
    exists bs'. split; [exact Hf|]. split; [intros Hn; apply Hnd, map_set_nodup, Hn|]. intros a.
    destruct (Hall a) as (H1 & H2 & H3). rewrite getb_set in H1. rewrite map_get_set in H2. rewrite pos_cons.
    destruct (beqb a0 a) eqn:E.
    + apply beqb_eq in E. subst a. simpl. rewrite Ea. split; [exact H1|]. split; [discriminate|]. intros _.
      destruct (pos a0 l) eqn:Ep; [rewrite H2 by reflexivity; discriminate|]. apply H3. discriminate.
    + auto.
Qed.
Lemma fold_bad l a : forall bs, ofold add1 (getb a bs) (pos a l) = None -> ofold step bs l = None.
Proof.
  induction l as [|[p a0] l IH]; intros bs H; simpl; [discriminate|].
  unfold step at 1. simpl. rewrite pos_cons in H.
  destruct (add1 (getb a0 bs) p) as [b|] eqn:Ea; [|reflexivity]. apply IH. rewrite getb_set.
  destruct (beqb a0 a) eqn:E; [|exact H]. apply beqb_eq in E. subst a. simpl in H. rewrite Ea in H. exact H.
Qed.

(** ** The positions of a name *)
Lemma enum_row_in areas : forall ir ia i j a,
  In ((i, j), a) (enum_row ir ia areas) <-> i = ir /\ ia <= j /\ nth_error areas (j - ia) = Some a.
Proof.
  induction areas as [|b l IH]; intros ir ia i j a; simpl.
  - split; [intros []|]. intros (_ & _ & H). destruct (j - ia); discriminate H.
  - rewrite IH. split.
    + intros [E|(-> & Hj & H)].
      * injection E as -> -> ->. rewrite Nat.sub_diag. auto.
      * split; [reflexivity|]. split; [lia|]. replace (j - ia) with (S (j - (ia + 1))) by lia. exact H.
    + intros (-> & Hj & H). destruct (Nat.eq_dec j ia) as [->|Hne].
      * left. rewrite Nat.sub_diag in H. injection H as ->. reflexivity.
      * right. split; [reflexivity|]. split; [lia|]. replace (j - ia) with (S (j - (ia + 1))) in H by lia. exact H.
Qed.
Lemma enum_in rows : forall ir i j a, In ((i, j), a) (enum ir rows) <-> ir <= i /\ grid_at rows (i - ir) j = Some a.
Proof.
  unfold grid_at. induction rows as [|r l IH]; intros ir i j a; simpl.
  - split; [intros []|]. intros (_ & H). destruct (i - ir); discriminate H.
  - rewrite in_app_iff, enum_row_in, IH, Nat.sub_0_r. split.
    + intros [(-> & _ & H)|(Hi & H)].
      * rewrite Nat.sub_diag. auto.
      * split; [lia|]. replace (i - ir) with (S (i - (ir + 1))) by lia. exact H.
    + intros (Hi & H). destruct (Nat.eq_dec i ir) as [->|Hne].
      * left. rewrite Nat.sub_diag in H. split; [reflexivity|]. split; [lia|exact H].
      * right. split; [lia|]. replace (i - ir) with (S (i - (ir + 1))) in H by lia. exact H.
Qed.
Lemma pos_in a rows i j : In (i, j) (pos a (enum 0 rows)) <-> grid_at rows i j = Some a.
Proof.
  unfold pos. rewrite in_map_iff. split.
  - intros ([p b] & E & Hin). apply filter_In in Hin as [Hin Hb]. simpl in *. subst p. apply beqb_eq in Hb. subst b.
    apply enum_in in Hin as [_ H]. rewrite Nat.sub_0_r in H. exact H.
  - intros H. exists ((i, j), a). split; [reflexivity|]. apply filter_In. split; [|apply beqb_refl].
    apply enum_in. rewrite Nat.sub_0_r. split; [lia|exact H].
Qed.
Lemma sorted_app_lex l1 l2 : StronglySorted lex l1 -> StronglySorted lex l2 -> (forall a b, In a l1 -> In b l2 -> lex a b) ->
  StronglySorted lex (l1 ++ l2).
Proof.
  induction l1 as [|a l1 IH1]; intros H1 H2 H; simpl; [exact H2|]. inversion H1; subst. constructor.
  - apply IH1; auto. intros. apply H; [right|]; assumption.
  - apply Forall_app. split; [assumption|]. apply Forall_forall. intros b Hb. apply H; [left; reflexivity|exact Hb].
Qed.
Lemma enum_sorted rows : forall ir, StronglySorted lex (map fst (enum ir rows)).
Proof.
  induction rows as [|r l IH]; intros ir; simpl; [constructor|]. rewrite map_app. apply sorted_app_lex.
  - generalize 0. induction r as [|a r IHr]; intros ia; simpl; constructor; [apply IHr|].
    apply Forall_forall. intros [i j] Hin. apply in_map_iff in Hin as ([[i' j'] b] & E & Hin). simpl in E. injection E as -> ->.
    apply enum_row_in in Hin as (-> & Hj & _). unfold lex. simpl. lia.
  - apply IH.
  - intros p q Hp Hq. apply in_map_iff in Hp as ([[i j] b] & <- & Hp). apply in_map_iff in Hq as ([[i' j'] b'] & <- & Hq).
    apply enum_row_in in Hp as (-> & _). apply enum_in in Hq as (Hq & _). left. simpl. lia.
Qed.
Lemma sorted_map_filter (f : (nat * nat) * bytes -> bool) l : StronglySorted lex (map fst l) -> StronglySorted lex (map fst (filter f l)).
Proof.
  induction l as [|x l IH]; intros H; simpl; [constructor|]. simpl in H. inversion H; subst.
  destruct (f x); [|apply IH; assumption]. simpl. constructor; [apply IH; assumption|].
  rewrite Forall_forall in *. intros q Hq. apply H3. apply in_map_iff in Hq as (y & <- & Hy). apply in_map.
  apply filter_In in Hy. tauto.
Qed.
Lemma sorted_unique l1 : forall l2, StronglySorted lex l1 -> StronglySorted lex l2 -> (forall p, In p l1 <-> In p l2) -> l1 = l2.
Proof.
  induction l1 as [|a l1 IH]; intros l2 H1 H2 H.
  - destruct l2 as [|b l2]; [reflexivity|]. exfalso. apply (proj2 (H b)). left; reflexivity.
  - destruct l2 as [|b l2]; [exfalso; apply (proj1 (H a)); left; reflexivity|].
    inversion H1; subst. inversion H2; subst. rewrite Forall_forall in *.
    assert (a = b).
    { destruct (proj1 (H a) (or_introl eq_refl)) as [|Ha]; [auto|]. destruct (proj2 (H b) (or_introl eq_refl)) as [|Hb]; [auto|].
      exfalso. apply (lex_irrefl a). eapply lex_trans; [apply H5; exact Hb|apply H7; exact Ha]. }
    subst b. f_equal. apply IH; [assumption|assumption|]. intros p. split; intros Hp.
    + destruct (proj1 (H p) (or_intror Hp)) as [->|]; [|assumption]. exfalso. apply (lex_irrefl p). apply H5. exact Hp.
    + destruct (proj2 (H p) (or_intror Hp)) as [->|]; [|assumption]. exfalso. apply (lex_irrefl p). apply H7. exact Hp.
Qed.

Lemma nth_repeat_lt (x n k : nat) : k < n -> nth k (repeat x n) 0 = x.
Proof. revert k. induction n as [|n IH]; intros k H; [lia|]. destruct k; [reflexivity|]. simpl. apply IH. lia. Qed.
Lemma rect_pos rows a l t r b : is_rectangle rows a l t r b <->
  l <= r /\ t <= b /\ pos a (enum 0 rows) = shape_pos t l (repeat (r - l + 1) (b - t + 1)).
Proof.
  assert (Hin : forall i j, l <= r -> t <= b ->
    (In (i, j) (shape_pos t l (repeat (r - l + 1) (b - t + 1))) <-> t <= i <= b /\ l <= j <= r)).
  { intros i j Hl Ht. rewrite shape_pos_in, repeat_length. split.
    - intros (k & -> & Hk & Hj). rewrite (nth_repeat_lt _ _ _ Hk) in Hj. lia.
    - intros (Hi & Hj). exists (i - t). rewrite nth_repeat_lt by lia. lia. }
  split.
  - intros (Hl & Ht & H). split; [exact Hl|]. split; [exact Ht|]. apply sorted_unique.
    + apply sorted_map_filter, enum_sorted.
    + apply shape_pos_sorted.
    + intros [i j]. rewrite pos_in, H, Hin by assumption. reflexivity.
  - intros (Hl & Ht & H). split; [exact Hl|]. split; [exact Ht|]. intros i j. rewrite <- pos_in, H. apply Hin; assumption.
Qed.

Lemma validate_box t l ns : ns <> [] -> box_validate (boxof t l ns) = Some (forallb (fun n => Nat.eqb n (hd 0 ns)) ns).
Proof.
  destruct ns as [|n ns]; [congruence|]. intros _. unfold box_validate, boxof. cbn [gb_rows shape].
  cbn [ar_cols]. rewrite seq_length. f_equal. cbn [forallb hd ar_cols]. rewrite seq_length. f_equal.
  generalize (S t). induction ns as [|m ns IH]; intros t0; [reflexivity|]. cbn [shape forallb ar_cols]. rewrite seq_length. f_equal. apply IH.
Qed.
Lemma all_equal_repeat ns : forallb (fun n => Nat.eqb n (hd 0 ns)) ns = true <-> ns = repeat (hd 0 ns) (List.length ns).
Proof.
  destruct ns as [|n ns]; [simpl; tauto|]. cbn [hd]. split.
  - intros H. apply Forall_eq_repeat. apply Forall_forall. intros x Hx. rewrite forallb_forall in H. apply H in Hx.
    apply Nat.eqb_eq in Hx. auto.
  - intros H. apply forallb_forall. intros x Hx. rewrite H in Hx. apply repeat_spec in Hx. subst. apply Nat.eqb_refl.
Qed.
Lemma maxl_repeat n k : maxl (repeat n (S k)) = n.
Proof. unfold maxl. induction k as [|k IH]; simpl in *; [lia|]. rewrite IH. lia. Qed.
Lemma boxof_rect l t r b : l <= r -> t <= b ->
  boxof t l (repeat (r - l + 1) (b - t + 1)) = mkGridBox (shape t l (repeat (r - l + 1) (b - t + 1))) l t r b.
Proof.
  intros Hl Ht. unfold boxof. rewrite repeat_length. replace (b - t + 1) with (S (b - t)) by lia. rewrite maxl_repeat.
  f_equal; lia.
Qed.

Lemma validate_all_spec l : Forall (fun x => box_validate (snd x) <> None) l ->
  exists v, validate_all l = Some v /\ (v = true <-> Forall (fun x => box_validate (snd x) = Some true) l).
Proof.
  induction l as [|[a b] l IH]; intros H; simpl.
  - exists true. split; [reflexivity|]. split; auto.
  - inversion H; subst. destruct (IH H3) as (v & Hv & Hs). simpl in H2. destruct (box_validate b) as [[|]|] eqn:Eb.
    + exists v. split; [exact Hv|]. rewrite Hs. split; [intros; constructor; assumption|intros Hx; inversion Hx; assumption].
    + exists false. split; [reflexivity|]. split; [discriminate|]. intros Hx. inversion Hx; subst. simpl in *. congruence.
    + congruence.
Qed.

(** What renderGrid does, for every iteration order. *)
Definition bounds (b : gridBox) : nat * nat * nat * nat := (gb_left b, gb_top b, gb_right b, gb_bottom b).
Lemma grid_main shuffle rows : (forall l : boxes, Permutation (shuffle l) l) ->
  match render_grid shuffle rows with
  | GOk bs => rectangular rows /\
      forall a, match map_get a bs with
                | Some b => is_rectangle rows a (gb_left b) (gb_top b) (gb_right b) (gb_bottom b)
                | None => forall i j, grid_at rows i j <> Some a
                end
  | GErr => ~ rectangular rows
  | GPanic => False
  end.
Proof.
  intros Hsh. unfold render_grid. rewrite add_rows_fold.
  assert (Hrect : rectangular rows -> forall a, exists l t r b, pos a (enum 0 rows) = [] \/
     (l <= r /\ t <= b /\ pos a (enum 0 rows) = shape_pos t l (repeat (r - l + 1) (b - t + 1)))).
  { intros Hr a. destruct (pos a (enum 0 rows)) as [|[i j] ps] eqn:E; [exists 0, 0, 0, 0; left; reflexivity|].
    assert (Hin : In (i, j) (pos a (enum 0 rows))) by (rewrite E; left; reflexivity). apply pos_in in Hin.
    destruct (Hr _ _ _ Hin) as (l & t & r & b & H). apply rect_pos in H. rewrite E in H. exists l, t, r, b. right. exact H. }
  destruct (ofold step [] (enum 0 rows)) as [bs|] eqn:E.
  - assert (Hall : forall a, ofold add1 (getb a []) (pos a (enum 0 rows)) <> None).
    { intros a Hn. apply fold_bad in Hn. congruence. }
    destruct (fold_ok (enum 0 rows) [] Hall) as (bs' & E' & Hnd & H). rewrite E in E'. injection E' as <-.
    specialize (Hnd (NoDup_nil _)).
    assert (Hshape : forall a b, map_get a bs = Some b -> exists t l ns, ns <> [] /\ Forall (fun n => 1 <= n) ns /\
        pos a (enum 0 rows) = shape_pos t l ns /\ b = boxof t l ns).
    { intros a b Hb. destruct (H a) as (H1 & H2 & _). unfold getb in H1. rewrite Hb in H1. simpl in H1.
      destruct (fold_shape (pos a (enum 0 rows)) (sorted_map_filter _ _ (enum_sorted rows 0)) b H1) as [[Hp _]|Hs]; [|exact Hs].
      rewrite (H2 Hp) in Hb. discriminate. }
    assert (Hval : Forall (fun x => box_validate (snd x) <> None) (shuffle bs)).
    { apply Forall_forall. intros [a b] Hx. apply (Permutation_in _ (Hsh bs)) in Hx. apply map_get_in in Hx; [|exact Hnd].
      destruct (Hshape a b Hx) as (t & l & ns & Hne & _ & _ & ->). simpl. rewrite validate_box by exact Hne. discriminate. }
    destruct (validate_all_spec _ Hval) as (v & -> & Hv).
    assert (Hv' : v = true <-> forall a b, map_get a bs = Some b -> box_validate b = Some true).
    { rewrite Hv. rewrite Forall_forall. split.
      - intros Hx a b Hb. apply (Hx (a, b)). apply Permutation_in with bs; [apply Permutation_sym, Hsh|]. apply map_get_in; [exact Hnd|exact Hb].
      - intros Hx [a b] Hin. apply (Permutation_in _ (Hsh bs)) in Hin. apply map_get_in in Hin; [|exact Hnd]. apply (Hx a b Hin). }
    assert (Hbox : forall a b, map_get a bs = Some b -> box_validate b = Some true ->
        is_rectangle rows a (gb_left b) (gb_top b) (gb_right b) (gb_bottom b)).
    { intros a b Hb Hvb. destruct (Hshape a b Hb) as (t & l & ns & Hne & Hpos & Hp & ->).
      rewrite validate_box in Hvb by exact Hne. injection Hvb as Hvb. apply all_equal_repeat in Hvb.
      set (n := hd 0 ns) in *. set (k := List.length ns) in *.
      assert (Hk : 1 <= k) by (subst k; destruct ns; [congruence|simpl; lia]).
      assert (Hn : 1 <= n). { rewrite Hvb in Hpos. destruct k as [|k']; [lia|]. inversion Hpos; assumption. }
      assert (Hn' : n = (l + n - 1) - l + 1) by lia. assert (Hk' : k = (t + k - 1) - t + 1) by lia.
      assert (En : ns = repeat ((l + n - 1) - l + 1) ((t + k - 1) - t + 1)) by (rewrite <- Hn', <- Hk'; exact Hvb).
      rewrite En, boxof_rect by lia. cbn [gb_left gb_top gb_right gb_bottom]. apply rect_pos.
      split; [lia|]. split; [lia|]. rewrite Hp. f_equal. exact En. }
    destruct v.
    + pose proof (proj1 Hv' eq_refl) as Hv1. split.
      * intros i j a Hg. destruct (H a) as (_ & _ & H3).
        assert (Hne : pos a (enum 0 rows) <> []). { intros Hp. apply pos_in in Hg. rewrite Hp in Hg. exact Hg. }
        specialize (H3 Hne). destruct (map_get a bs) as [b|] eqn:Eb; [|congruence].
        eexists _, _, _, _. exact (Hbox a b Eb (Hv1 a b Eb)).
      * intros a. destruct (map_get a bs) as [b|] eqn:Eb; [exact (Hbox a b Eb (Hv1 a b Eb))|].
        intros i j Hg. destruct (H a) as (_ & _ & H3). apply H3; [|exact Eb]. intros Hp. apply pos_in in Hg. rewrite Hp in Hg. exact Hg.
    + intros Hr. assert (false = true); [|discriminate]. apply Hv'. intros a b Hb.
      destruct (Hshape a b Hb) as (t & l & ns & Hne & Hpos & Hp & ->). rewrite validate_box by exact Hne. f_equal.
      apply all_equal_repeat.
      destruct (Hrect Hr a) as (l0 & t0 & r0 & b0 & [Hnil|(Hl & Ht & Hq)]).
      { exfalso. rewrite Hnil in Hp. destruct ns as [|n ns]; [congruence|]. inversion Hpos; subst. destruct n; [lia|]. discriminate Hp. }
      rewrite Hp in Hq.
      assert (Eb : Some (boxof t l ns) = Some (boxof t0 l0 (repeat (r0 - l0 + 1) (b0 - t0 + 1)))).
      { rewrite <- !fold_stack; try assumption.
        - rewrite Hq. reflexivity.
        - replace (b0 - t0 + 1) with (S (b0 - t0)) by lia. discriminate.
        - apply Forall_forall. intros x Hx. apply repeat_spec in Hx. lia. }
      injection Eb as Es _ _ _ _.
      assert (Hlens : forall t l ns, map (fun r => List.length (ar_cols r)) (shape t l ns) = ns).
      { clear. intros t l ns. revert t. induction ns as [|n ns IH]; intros t; simpl; [reflexivity|]. rewrite seq_length, IH. reflexivity. }
      apply (f_equal (map (fun r => List.length (ar_cols r)))) in Es. rewrite !Hlens in Es. rewrite Es.
      replace (b0 - t0 + 1) with (S (b0 - t0)) by lia. rewrite repeat_length. reflexivity.
  - intros Hr. 
    destruct (fold_ok (enum 0 rows) []) as (bs' & E' & _); [|congruence].
    intros a. destruct (Hrect Hr a) as (l & t & r & b & [->|(Hl & Ht & ->)]); [discriminate|].
    change (getb a []) with empty_box. rewrite fold_stack; [discriminate| |].
    + replace (b - t + 1) with (S (b - t)) by lia. discriminate.
    + apply Forall_forall. intros x Hx. apply repeat_spec in Hx. lia.
Qed.
