(** Lemmas about the string functions of GoStr.v. *)
From Verif Require Import GoStr.

Lemma beqb_spec a b : reflect (a = b) (beqb a b).
Proof.
  revert b; induction a as [|x a IH]; intros [|y b]; simpl; try (constructor; congruence).
  destruct (Ascii.eqb_spec x y) as [->|Hne]; simpl.
  - destruct (IH b) as [->|Hn]; constructor; congruence.
  - constructor; congruence.
Qed.
Lemma beqb_refl a : beqb a a = true.
Proof. destruct (beqb_spec a a); congruence. Qed.
Lemma beqb_eq a b : beqb a b = true <-> a = b.
Proof. destruct (beqb_spec a b); split; congruence. Qed.

Lemma has_prefix_spec p s : has_prefix p s = true <-> exists t, s = p ++ t.
Proof.
  revert s; induction p as [|x p IH]; intros s; simpl.
  - split; [exists s; reflexivity | reflexivity].
  - destruct s as [|y s].
    + split; [discriminate | intros [t Ht]; discriminate].
    + rewrite andb_true_iff, IH. split.
      * intros [He [t Ht]]. apply Ascii.eqb_eq in He; subst. exists t; reflexivity.
      * intros [t Ht]. injection Ht as -> ->. split; [apply Ascii.eqb_refl | exists t; reflexivity].
Qed.
Lemma has_prefix_app p t : has_prefix p (p ++ t) = true.
Proof. apply has_prefix_spec; exists t; reflexivity. Qed.

Lemma replace_go_skip old new k s :
  replace_go old new k s = replace_go old new 0 (skipn k s).
Proof.
  revert k; induction s as [|c s IH]; intros [|k]; simpl; try reflexivity.
  apply IH.
Qed.

Lemma replace_go_match old new t :
  old <> [] -> replace_go old new 0 (old ++ t) = new ++ replace_go old new 0 t.
Proof.
  intros Hne. destruct old as [|c old']; [congruence|].
  remember (c :: old') as old. assert (Hs : exists r, old ++ t = c :: r /\ r = old' ++ t).
  { subst; eexists; split; reflexivity. }
  destruct Hs as [r [Hr Hr']]. rewrite Hr. simpl. rewrite <- Hr, has_prefix_app.
  rewrite replace_go_skip. f_equal. f_equal. subst. simpl.
  rewrite Nat.sub_0_r, skipn_app, Nat.sub_diag, skipn_all. reflexivity.
Qed.

Lemma replace_go_nomatch old new c s :
  has_prefix old (c :: s) = false ->
  replace_go old new 0 (c :: s) = c :: replace_go old new 0 s.
Proof. intros H. simpl replace_go at 1. rewrite H. reflexivity. Qed.

(** Induction that follows the leftmost-match scan. *)
Lemma scan_ind (old : bytes) (P : bytes -> Prop) :
  old <> [] -> P [] ->
  (forall t, P t -> P (old ++ t)) ->
  (forall c s, has_prefix old (c :: s) = false -> P s -> P (c :: s)) ->
  forall s, P s.
Proof.
  intros Hne H0 Hm Hn s.
  remember (List.length s) as n eqn:Hlen. revert s Hlen.
  induction n as [n IH] using lt_wf_ind; intros s Hlen.
  destruct s as [|c s]; [exact H0|].
  destruct (has_prefix old (c :: s)) eqn:Hp.
  - apply has_prefix_spec in Hp as [t Ht]. rewrite Ht in Hlen |- *.
    apply Hm. apply (IH (List.length t)); [|reflexivity].
    rewrite app_length in Hlen. destruct old; [congruence | simpl in Hlen; lia].
  - apply Hn; [exact Hp|]. apply (IH (List.length s)); [simpl in Hlen; lia | reflexivity].
Qed.

Definition occ (l s : bytes) : Prop := exists a b, s = a ++ l ++ b.

Lemma occ_nil_r l : l <> [] -> ~ occ l [].
Proof. intros Hne (a & b & H). destruct a; [destruct l; [congruence|discriminate]|discriminate]. Qed.
Lemma occ_cons l c s : occ l s -> occ l (c :: s).
Proof. intros (a & b & ->). exists (c :: a), b. reflexivity. Qed.
Lemma occ_cons_inv l c s : occ l (c :: s) -> has_prefix l (c :: s) = true \/ occ l s.
Proof.
  intros (a & b & H). destruct a as [|x a]; simpl in H.
  - left. apply has_prefix_spec. exists b; exact H.
  - right. injection H as -> ->. exists a, b; reflexivity.
Qed.
Lemma occ_prefix l s : has_prefix l s = true -> occ l s.
Proof. intros H; apply has_prefix_spec in H as [t ->]. exists [], t; reflexivity. Qed.

Lemma replace_go_noocc old new s :
  old <> [] -> ~ occ old s -> replace_go old new 0 s = s.
Proof.
  intros Hne. induction s as [|c s IH]; intros Hno; [reflexivity|].
  rewrite replace_go_nomatch.
  - f_equal. apply IH. intros H; apply Hno, occ_cons, H.
  - destruct (has_prefix old (c :: s)) eqn:Hp; [|reflexivity].
    exfalso; apply Hno, occ_prefix, Hp.
Qed.

Lemma replace_go_length_le old new s :
  old <> [] -> List.length new <= List.length old ->
  List.length (replace_go old new 0 s) <= List.length s.
Proof.
  intros Hne Hle. pattern s; apply (scan_ind old); [exact Hne| | |].
  - simpl; lia.
  - intros t IH. rewrite replace_go_match, !app_length by assumption. lia.
  - intros c t Hp IH. rewrite replace_go_nomatch by assumption. simpl. lia.
Qed.

Lemma replace_go_length_lt old new s :
  old <> [] -> List.length new < List.length old -> occ old s ->
  List.length (replace_go old new 0 s) < List.length s.
Proof.
  intros Hne Hlt. pattern s; apply (scan_ind old); [exact Hne| | |].
  - intros Ho; exfalso; exact (occ_nil_r _ Hne Ho).
  - intros t IH Ho. rewrite replace_go_match, !app_length by assumption.
    pose proof (replace_go_length_le old new t Hne ltac:(lia)). lia.
  - intros c t Hp IH Ho. rewrite replace_go_nomatch by assumption. simpl.
    destruct (occ_cons_inv _ _ _ Ho) as [H|H]; [congruence|]. specialize (IH H). lia.
Qed.

Lemma occ_dec l s : occ l s \/ ~ occ l s.
Proof.
  induction s as [|c s [IH|IH]].
  - destruct l; [left; exists [], []; reflexivity | right; apply occ_nil_r; congruence].
  - left; apply occ_cons, IH.
  - destruct (has_prefix l (c :: s)) eqn:Hp; [left; apply occ_prefix, Hp|].
    right; intros H; apply occ_cons_inv in H as [H|H]; [congruence|exact (IH H)].
Qed.

Lemma replace_all_char s a b :
  a <> b -> replace_all s [a] [b] = map (fun c => if Ascii.eqb c a then b else c) s.
Proof.
  intros Hne. unfold replace_all.
  destruct (beqb_spec [a] [b]) as [E|_]; [congruence|].
  induction s as [|c s IH]; [reflexivity|].
  simpl. destruct (Ascii.eqb_spec a c) as [->|Hac]; simpl.
  - rewrite Ascii.eqb_refl, IH. reflexivity.
  - destruct (Ascii.eqb_spec c a) as [->|_]; [congruence|]. rewrite IH. reflexivity.
Qed.

(** trimming *)
Lemma trim_left_suffix cut s : exists p, s = p ++ trim_left cut s /\ Forall (fun c => cut c = true) p.
Proof.
  induction s as [|c s [p [Hp Hf]]]; [exists []; split; [reflexivity|constructor]|].
  simpl. destruct (cut c) eqn:Hc.
  - exists (c :: p). split; [simpl; congruence | constructor; assumption].
  - exists []. split; [reflexivity | constructor].
Qed.
Lemma trim_right_prefix cut s : exists p, s = trim_right cut s ++ p /\ Forall (fun c => cut c = true) p.
Proof.
  unfold trim_right. destruct (trim_left_suffix cut (rev s)) as [p [Hp Hf]].
  exists (rev p). split.
  - rewrite <- rev_app_distr, <- Hp. symmetry; apply rev_involutive.
  - apply Forall_rev, Hf.
Qed.
Lemma trim_left_head cut s c t : trim_left cut s = c :: t -> cut c = false.
Proof.
  induction s as [|x s IH]; simpl; [discriminate|].
  destruct (cut x) eqn:Hx; [exact IH | intros H; congruence].
Qed.
Lemma trim_right_last cut s c t : trim_right cut s = t ++ [c] -> cut c = false.
Proof.
  unfold trim_right. intros H.
  apply (f_equal (@rev _)) in H. rewrite rev_involutive, rev_app_distr in H. simpl in H.
  eapply trim_left_head, H.
Qed.
Lemma trim_split cut s : exists p q, s = p ++ trim cut s ++ q /\
  Forall (fun c => cut c = true) p /\ Forall (fun c => cut c = true) q.
Proof.
  unfold trim. destruct (trim_left_suffix cut s) as [p [Hp Hfp]].
  destruct (trim_right_prefix cut (trim_left cut s)) as [q [Hq Hfq]].
  exists p, q. split; [congruence | split; assumption].
Qed.
Lemma trim_head cut s c t : trim cut s = c :: t -> cut c = false.
Proof.
  unfold trim. intros H. destruct (trim_right_prefix cut (trim_left cut s)) as [q [Hq _]].
  rewrite H in Hq. simpl in Hq. eapply trim_left_head, Hq.
Qed.
Lemma trim_last cut s c t : trim cut s = t ++ [c] -> cut c = false.
Proof. unfold trim; apply trim_right_last. Qed.

Lemma trim_left_id cut c s : cut c = false -> trim_left cut (c :: s) = c :: s.
Proof. intros H; simpl; rewrite H; reflexivity. Qed.
Lemma trim_right_id cut s c : cut c = false -> trim_right cut (s ++ [c]) = s ++ [c].
Proof.
  intros H. unfold trim_right. rewrite rev_app_distr. cbn [rev app].
  rewrite trim_left_id by assumption. cbn [rev]. rewrite rev_involutive. reflexivity.
Qed.
(** A string whose ends are not cut characters is unchanged by [trim]. *)
Lemma trim_id cut s :
  (forall c t, s = c :: t -> cut c = false) -> (forall c t, s = t ++ [c] -> cut c = false) ->
  trim cut s = s.
Proof.
  intros Hh Hl. unfold trim.
  assert (trim_left cut s = s) as ->.
  { destruct s as [|c s]; [reflexivity|]. apply trim_left_id. eapply Hh; reflexivity. }
  destruct s as [|c s] using rev_ind; [reflexivity|].
  apply trim_right_id. eapply Hl; reflexivity.
Qed.

(** [trim_left] applied to a fully cut string. *)
Lemma trim_left_all cut p s : Forall (fun c => cut c = true) p -> trim_left cut (p ++ s) = trim_left cut s.
Proof. induction 1 as [|c p Hc _ IH]; simpl; [reflexivity | rewrite Hc; exact IH]. Qed.
Lemma trim_right_all cut p s : Forall (fun c => cut c = true) p -> trim_right cut (s ++ p) = trim_right cut s.
Proof.
  intros H. unfold trim_right. rewrite rev_app_distr, trim_left_all; [reflexivity | apply Forall_rev, H].
Qed.

(** splitting *)
Lemma split_byte_nonempty sep s : split_byte sep s <> [].
Proof.
  induction s as [|c s IH]; simpl; [congruence|].
  destruct (Ascii.eqb c sep); [congruence|]. destruct (split_byte sep s); congruence.
Qed.
Lemma split_byte_join sep s : str_join [sep] (split_byte sep s) = s.
Proof.
  induction s as [|c s IH]; [reflexivity|]. simpl.
  pose proof (split_byte_nonempty sep s) as Hne.
  destruct (Ascii.eqb_spec c sep) as [->|Hc].
  - destruct (split_byte sep s) as [|w ws]; [congruence|].
    change (str_join [sep] ([] :: w :: ws)) with ([] ++ [sep] ++ str_join [sep] (w :: ws)).
    rewrite IH. reflexivity.
  - destruct (split_byte sep s) as [|w ws]; [congruence|].
    destruct ws as [|w' ws]; simpl in *; congruence.
Qed.
Lemma split_byte_nosep sep s w : In w (split_byte sep s) -> ~ In sep w.
Proof.
  revert w; induction s as [|c s IH]; intros w; simpl.
  - intros [<-|[]] [].
  - destruct (Ascii.eqb_spec c sep) as [->|Hc].
    + intros [<-|Hw]; [intros [] | apply IH, Hw].
    + destruct (split_byte sep s) as [|x xs] eqn:E.
      * intros [<-|[]] [H|[]]; congruence.
      * intros [<-|Hw].
        -- intros [H|H]; [congruence|]. exact (IH x (or_introl eq_refl) H).
        -- apply IH; right; exact Hw.
Qed.
Lemma split_byte_nosep_id sep w : ~ In sep w -> split_byte sep w = [w].
Proof.
  induction w as [|c w IH]; intros H; [reflexivity|]. simpl.
  destruct (Ascii.eqb_spec c sep) as [->|Hc]; [exfalso; apply H; left; reflexivity|].
  rewrite IH; [reflexivity | intros Hi; apply H; right; exact Hi].
Qed.
Lemma split_byte_app sep w s : ~ In sep w -> split_byte sep (w ++ sep :: s) = w :: split_byte sep s.
Proof.
  induction w as [|c w IH]; intros H; simpl.
  - rewrite Ascii.eqb_refl. reflexivity.
  - destruct (Ascii.eqb_spec c sep) as [->|Hc]; [exfalso; apply H; left; reflexivity|].
    rewrite IH; [reflexivity | intros Hi; apply H; right; exact Hi].
Qed.
(** Splitting is the inverse of joining pieces that do not contain the separator. *)
Lemma split_byte_of_join sep l :
  l <> [] -> Forall (fun w => ~ In sep w) l -> split_byte sep (str_join [sep] l) = l.
Proof.
  intros Hne Hf. induction l as [|w l IH]; [congruence|].
  inversion Hf as [|? ? Hw Hl]; subst.
  destruct l as [|w' l].
  - apply split_byte_nosep_id, Hw.
  - change (str_join [sep] (w :: w' :: l)) with (w ++ sep :: str_join [sep] (w' :: l)).
    rewrite split_byte_app by assumption. f_equal. apply IH; [congruence | exact Hl].
Qed.
Lemma split_byte_length sep s :
  List.length (split_byte sep s) = S (List.length (filter (Ascii.eqb sep) s)).
Proof.
  induction s as [|c s IH]; [reflexivity|]. simpl. rewrite (Ascii.eqb_sym sep c).
  destruct (Ascii.eqb c sep); simpl; [congruence|].
  pose proof (split_byte_nonempty sep s). destruct (split_byte sep s); [congruence | exact IH].
Qed.

Lemma index_byte_spec c s i :
  index_byte c s = Some i -> exists p q, s = p ++ c :: q /\ List.length p = i /\ ~ In c p.
Proof.
  revert i; induction s as [|x s IH]; intros i; simpl; [discriminate|].
  destruct (Ascii.eqb_spec x c) as [->|Hx].
  - intros [= <-]. exists [], s. split; [reflexivity|split; [reflexivity|intros []]].
  - destruct (index_byte c s) as [j|] eqn:E; [|discriminate].
    intros [= <-]. destruct (IH j eq_refl) as (p & q & -> & Hl & Hn).
    exists (x :: p), q. split; [reflexivity|]. split; [simpl; lia|].
    intros [H|H]; [congruence | exact (Hn H)].
Qed.
Lemma index_byte_none c s : index_byte c s = None <-> ~ In c s.
Proof.
  induction s as [|x s IH]; simpl; [split; [intros _ [] | reflexivity]|].
  destruct (Ascii.eqb_spec x c) as [->|Hx].
  - split; [discriminate | intros H; exfalso; apply H; left; reflexivity].
  - destruct (index_byte c s) as [j|]; split; try discriminate.
    + intros H; exfalso. assert (~ In c s) by (intros Hi; apply H; right; exact Hi).
      apply IH in H0; discriminate.
    + intros _ [H|H]; [congruence|]. apply IH in H; [exact H|reflexivity].
    + reflexivity.
Qed.
Lemma index_byte_app c p q : ~ In c p -> index_byte c (p ++ c :: q) = Some (List.length p).
Proof.
  induction p as [|x p IH]; intros H; simpl.
  - rewrite Ascii.eqb_refl. reflexivity.
  - destruct (Ascii.eqb_spec x c) as [->|Hx]; [exfalso; apply H; left; reflexivity|].
    rewrite IH; [reflexivity | intros Hi; apply H; right; exact Hi].
Qed.
Lemma contains_byte_spec c s : contains_byte c s = true <-> In c s.
Proof.
  unfold contains_byte. rewrite existsb_exists. split.
  - intros [x [Hx He]]. apply Ascii.eqb_eq in He; subst; exact Hx.
  - intros H. exists c. split; [exact H | apply Ascii.eqb_refl].
Qed.
