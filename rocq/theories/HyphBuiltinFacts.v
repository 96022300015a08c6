(** The embedded pattern tables load completely. *)
From Verif Require Import GoStr GoStrFacts Utf8 HyphPattern HyphEnUs HyphLatin HyphBuiltin HyphSpec HyphView HyphPatternFacts.

Fixpoint list_eqb {A} (f : A -> A -> bool) (a b : list A) : bool :=
  match a, b with
  | [], [] => true
  | x :: a', y :: b' => f x y && list_eqb f a' b'
  | _, _ => false
  end.
Lemma list_eqb_eq {A} (f : A -> A -> bool) a b :
  (forall x y, f x y = true -> x = y) -> list_eqb f a b = true -> a = b.
Proof.
  intros Hf. revert b; induction a as [|x a IH]; intros [|y b] H; try discriminate; [reflexivity|].
  simpl in H. apply andb_true_iff in H as [H1 H2]. f_equal; [apply Hf, H1|apply IH, H2].
Qed.
Definition pattern_eqb (p q : pattern) : bool :=
  list_eqb N.eqb (letters p) (letters q) && list_eqb Nat.eqb (weights p) (weights q).
Lemma pattern_eqb_eq p q : pattern_eqb p q = true -> p = q.
Proof.
  unfold pattern_eqb. intros H. apply andb_true_iff in H as [H1 H2].
  apply list_eqb_eq in H1; [|intros; apply N.eqb_eq; assumption].
  apply list_eqb_eq in H2; [|intros; apply Nat.eqb_eq; assumption].
  destruct p, q; cbn in *; congruence.
Qed.

Definition check_table (ext : N -> bool) (ls : list string) : bool :=
  match new_builtin ext ls with
  | None => false
  | Some pl =>
      forallb (fun l =>
        match list_ascii_of_string l with
        | [] => true
        | b => match parse_pattern ext b with
               | Ok p => match find pl (encode (letters p)) with Some q => pattern_eqb p q | None => false end
               | Err _ => false
               end
        end) ls
  end.


Lemma check_table_ok ext ls : check_table ext ls = true -> table_complete ext (new_builtin ext ls) ls.
Proof.
  unfold check_table, new_builtin, table_complete.
  unfold new_builtin. destruct (load ext (table_text ls)) as [pl|]; [|discriminate].
  intros H. exists pl. split; [reflexivity|]. split; [reflexivity|].
  rewrite forallb_forall in H. intros l Hl Hne. specialize (H l Hl). cbv beta in H.
  destruct (list_ascii_of_string l) as [|c b] eqn:E.
  - destruct l; [congruence|discriminate].
  - destruct (parse_pattern ext (c :: b)) as [p|]; [|discriminate].
    exists p. split; [reflexivity|]. destruct (find pl _) as [q|]; [|discriminate].
    apply pattern_eqb_eq in H. congruence.
Qed.

Lemma en_us_complete ext : table_complete ext (new_en_us ext) en_us_lines.
Proof. apply check_table_ok. vm_cast_no_check (eq_refl true). Qed.

(** [load] uses the digit test only through its values. *)
Lemma parse_loop_ext e e' : (forall r, is_digit e r = is_digit e' r) ->
  forall rs want ls ws, parse_loop e want ls ws rs = parse_loop e' want ls ws rs.
Proof.
  intros H rs; induction rs as [|r rs IH]; intros want ls ws; [reflexivity|].
  cbn [parse_loop]. rewrite H. destruct want; [|apply IH]. destruct (is_digit e' r); [|apply IH].
  destruct (parse_digit r); [apply IH|reflexivity].
Qed.
Lemma parse_pattern_ext e e' s : (forall r, is_digit e r = is_digit e' r) -> parse_pattern e s = parse_pattern e' s.
Proof. intros H. unfold parse_pattern. rewrite (parse_loop_ext e e' H). reflexivity. Qed.
Lemma load_ext e e' d : (forall r, is_digit e r = is_digit e' r) -> load e d = load e' d.
Proof.
  intros H. unfold load. generalize (@nil (bytes * pattern)). generalize (scan_lines d).
  intros ls; induction ls as [|l ls IH]; intros pl; [reflexivity|]. cbn [parse_lines].
  destruct (trim is_ws l); [apply IH|]. rewrite (parse_pattern_ext e e' _ H).
  destruct (parse_pattern e' _); [apply IH|reflexivity].
Qed.

Lemma latin_complete ext : ext 339%N = false -> table_complete ext (new_latin ext) latin_lines.
Proof.
  intros H. pose (e' := fun r => if (r =? 339)%N then false else ext r).
  assert (E : forall r, is_digit ext r = is_digit e' r).
  { intros r. unfold is_digit, e'. destruct (r <? 256)%N; [reflexivity|].
    destruct (N.eqb_spec r 339) as [->|]; [exact H|reflexivity]. }
  assert (Hc : table_complete e' (new_builtin e' latin_lines) latin_lines) by (apply check_table_ok; vm_cast_no_check (eq_refl true)).
  destruct Hc as (pl & H1 & H2 & H3). exists pl. unfold new_latin, new_builtin in *.
  rewrite (load_ext ext e' _ E). split; [exact H1|]. split; [exact H2|].
  intros l Hl Hn. rewrite (parse_pattern_ext ext e' _ E). apply H3; assumption.
Qed.
