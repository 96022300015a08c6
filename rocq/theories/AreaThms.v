(** The area a cell is drawn in, derived. *)
From Coq Require Import QArith Lia Lqa.
From Verif Require Import GoStr Num Style Class Instr Engine Layout Grid Table Lines Proc TableView TableSpec TableMain TableThms SizeThms DrawSpec.
Local Open Scope nat_scope.

Section Area.
Context {F : Num} (env : Env F) {eng : Engine F}.
Variables (st : Styled F) (xrows : list (xrow F)) (s s' : PS F eng) (h : heap F) (t : table F).
Hypothesis HT : transformTable env st xrows s = (Some (h, t), s').

Lemma height_of : forall i c, In c (cells (t_rows t) i) -> c_height (deref h c) = height (t_rows t) i.
Proof.
  intros i c Hc. destruct (transform_spec env st xrows s _ _ HT) as (h1 & t1 & h0 & rows0 & E & _ & _ & _ & _ & Hh & _). injection E as <- <-.
  unfold cells in Hc. unfold height. destruct (nth_error (t_rows t) i) as [row|] eqn:E; [|destruct Hc].
  destruct (Hh row (nth_error_In _ _ E)) as [_ H]. exact (H c Hc).
Qed.
Lemma sum_at : forall (f : cid -> F) (g : nat -> F) l k v, (forall n p, nth_error l n = Some p -> f p = g (k + n)) ->
  fold_left (fun v p => add v (f p)) l v = fold_left (fun v i => add v (g i)) (seq k (List.length l)) v.
Proof.
  intros f g. induction l as [|p l IH]; intros k v H; [reflexivity|]. cbn [fold_left List.length seq].
  rewrite (H 0 p eq_refl), Nat.add_0_r. apply IH. intros n q Hq. rewrite (H (S n) q Hq). f_equal. lia.
Qed.
Lemma drawn_height : forall i c, In c (cells (t_rows t) i) -> authored h c = true ->
  snd (cell_dim h c) = fold_left (fun v k => add v (height (t_rows t) k)) (seq (i + 1) (span (c_rowSpan (deref h c)) - 1)) (height (t_rows t) i).
Proof.
  intros i c Hc Ha. destruct (owned env st xrows s s' h t HT i c Hc Ha) as (_ & L & _ & _ & R). unfold cell_dim. cbn [snd].
  rewrite (sum_at (fun p => c_height (deref h p)) (height (t_rows t)) _ (i + 1)).
  - unfold cid in *. rewrite L, (height_of _ _ Hc). reflexivity.
  - intros n p Hp. destruct (R n p Hp) as [Hin _]. exact (height_of _ _ Hin).
Qed.
Lemma in_filter_nth : forall {A} (f : A -> bool) l j a, nth_error l j = Some a -> f a = true -> exists k, nth_error (filter f l) k = Some a.
Proof. intros A f l j a H Hf. apply In_nth_error, filter_In. split; [exact (nth_error_In _ _ H)|exact Hf]. Qed.
Lemma drawn_cols : forall i j c, cell_at (t_rows t) i j = Some c -> authored h c = true ->
  unreached xrows i \/ span (c_colSpan (deref h c)) = 1 ->
  c_spansCols (deref h c) = firstn (span (c_colSpan (deref h c)) - 1) (skipn (j + 1) (cells (t_rows t) i)).
Proof.
  intros i j c Hc Ha Hu. destruct (owned env st xrows s s' h t HT i c (nth_error_In _ _ Hc) Ha) as (L & _).
  destruct Hu as [Hu|Hu].
  2:{ rewrite Hu in L |- *. cbn [Nat.sub firstn] in *. destruct (c_spansCols (deref h c)); [reflexivity|discriminate]. }
  destruct (in_filter_nth (authored h) _ _ _ Hc Ha) as [k Hk].
  destruct (tile env st xrows s s' h t HT i k c Hu Hk) as [_ T].
  destruct (rectangle env st xrows s s' h t HT) as [_ R]. destruct (R _ _ _ Hc) as [_ J]. rewrite J in T.
  assert (N : forall n, n < span (c_colSpan (deref h c)) - 1 -> nth_error (c_spansCols (deref h c)) n = nth_error (skipn (j + 1) (cells (t_rows t) i)) n).
  { intros n Hn. destruct (T n Hn) as (p & A & B). rewrite B. unfold cell_at in A. rewrite <- A. clear.
    generalize (cells (t_rows t) i). intro l. generalize (j + 1). intro m. revert m. induction l as [|a l IH]; intros [|m]; cbn; try reflexivity.
    - destruct n; reflexivity.
    - apply IH. }
  clear T. revert N L. generalize (span (c_colSpan (deref h c)) - 1). generalize (skipn (j + 1) (cells (t_rows t) i)). generalize (c_spansCols (deref h c)).
  clear. unfold cid in *. intros l l' m. revert l l'. induction m as [|m IH]; intros l l' N L.
  - destruct l; [reflexivity|discriminate].
  - destruct l as [|a l]; [discriminate|]. assert (N0 := N 0 (Nat.lt_0_succ m)). destruct l' as [|b l']; [discriminate|]. cbn in N0. injection N0 as <-. cbn [firstn]. f_equal. apply IH.
    + intros n Hn. apply (N (S n)). lia.
    + injection L as L. exact L.
Qed.
Lemma drawn_width : forall i j c, cell_at (t_rows t) i j = Some c -> authored h c = true ->
  unreached xrows i \/ span (c_colSpan (deref h c)) = 1 ->
  fst (cell_dim h c) = fold_left (fun w p => add w (c_width (deref h p)))
    (firstn (span (c_colSpan (deref h c)) - 1) (skipn (j + 1) (cells (t_rows t) i))) (c_width (deref h c)).
Proof. intros i j c Hc Ha Hu. unfold cell_dim. cbn [fst]. rewrite (drawn_cols _ _ _ Hc Ha Hu). reflexivity. Qed.
End Area.

Section Edges.
Context (env : Env NumQ) {eng : Engine NumQ}.
Variables (st : Styled NumQ) (xrows : list (xrow NumQ)) (s s' : PS NumQ eng) (h : heap NumQ) (t : table NumQ).
Hypothesis HT : transformTable env st xrows s = (Some (h, t), s').
Local Open Scope Q_scope.
Lemma fold_shift : forall {A} (f : A -> Q) l (a b : Q), fold_left (fun w p => w + f p) l (a + b) == a + fold_left (fun w p => w + f p) l b.
Proof.
  intros A f. induction l as [|p l IH]; intros a b; cbn [fold_left]; [reflexivity|].
  rewrite <- IH. assert (E : a + b + f p == a + (b + f p)) by ring. revert E. generalize (a + b + f p), (a + (b + f p)). clear.
  induction l as [|p l IH]; intros x y E; cbn [fold_left]; [exact E|]. apply IH. rewrite E. reflexivity.
Qed.
Lemma right_edge : forall i j c (x0 : Q), cell_at (t_rows t) i j = Some c -> authored h c = true ->
  unreached xrows i \/ span (c_colSpan (deref h c)) = 1%nat ->
  (left_edge h x0 (cells (t_rows t) i) j : Q) + fst (cell_dim h c) == left_edge h x0 (cells (t_rows t) i) (j + span (c_colSpan (deref h c))).
Proof.
  intros i j c x0 Hc Ha Hu. rewrite (drawn_width env st xrows s s' h t HT i j c Hc Ha Hu). unfold left_edge.
  change (@add NumQ) with Qplus.
  rewrite <- fold_shift. set (n := span (c_colSpan (deref h c))). assert (Hn : (1 <= n)%nat) by (subst n; unfold span; lia).
  assert (E : firstn (j + n) (cells (t_rows t) i) = (firstn j (cells (t_rows t) i) ++ c :: firstn (n - 1) (skipn (j + 1) (cells (t_rows t) i)))%list).
  { unfold cell_at in Hc. revert Hc. generalize (cells (t_rows t) i). clear - Hn. induction j as [|j IH]; intros [|a l] Hc; try discriminate.
    - injection Hc as ->. cbn [Nat.add firstn app skipn]. destruct n; [lia|]. cbn [firstn]. rewrite Nat.sub_succ, Nat.sub_0_r. reflexivity.
    - cbn [Nat.add firstn app skipn]. f_equal. exact (IH l Hc). }
  rewrite E, fold_left_app. cbn [fold_left]. reflexivity.
Qed.
End Edges.
