(** The statements about table sizes over the rationals, derived. *)
From Coq Require Import QArith Lia Lqa Qfield.
From Verif Require Import GoStr Num Style Class Instr Engine Layout Grid Table Lines Proc EngineFacts LayoutFacts TableView TableSpec TableFacts SpanFacts NormFacts WidthFacts HeightFacts TableMain TableThms.
Local Open Scope Q_scope.
Local Notation Q := QArith_base.Q.

Lemma ltbQ : forall a b : Q, @ltb NumQ a b = true <-> a < b.
Proof.
  intros a b. cbn. destruct (Qle_bool b a) eqn:E; cbn; split; intro H; try discriminate; try reflexivity.
  - apply Qle_bool_iff in E. lra.
  - apply Qnot_le_lt. intro G. apply Qle_bool_iff in G. congruence.
Qed.
Lemma ltbQ_false : forall a b : Q, @ltb NumQ a b = false <-> b <= a.
Proof.
  intros a b. destruct (@ltb NumQ a b) eqn:E; split; intro H; try discriminate; try reflexivity.
  - apply ltbQ in E. lra.
  - apply Qnot_lt_le. intro G. apply ltbQ in G. congruence.
Qed.
Lemma eqbQ : forall a b : Q, @eqb NumQ a b = true <-> a == b.
Proof. intros a b. cbn. apply Qeq_bool_iff. Qed.

Definition wd (h : heap NumQ) (c : cid) : Q := ColumnWidth (c_sty (deref h c)).
Lemma larger_spec : forall h l (w : Q),
  let r := fold_left (larger (F:=NumQ) h) l w in
  w <= r /\ (forall c, In c l -> wd h c <= r) /\ (r = w \/ (w < r /\ exists c, In c l /\ wd h c = r)).
Proof.
  intros h. induction l as [|c l IH]; intros w r; subst r.
  - cbn [fold_left]. split; [lra|]. split; [intros ? []|left; reflexivity].
  - cbn [fold_left]. assert (G : larger (F:=NumQ) h w c = if @ltb NumQ w (wd h c) then wd h c else w) by reflexivity. rewrite G. clear G.
    destruct (@ltb NumQ w (wd h c)) eqn:E.
    + apply ltbQ in E. destruct (IH (wd h c)) as (A & B & C). set (r := fold_left (larger h) l (wd h c)) in *. split; [lra|]. split.
      * intros c' [->|H']; [exact A|exact (B c' H')].
      * right. destruct C as [C|[C (c' & C1 & C2)]]; [split; [rewrite C; exact E|]; exists c; split; [left; reflexivity|congruence]|].
        split; [lra|]. exists c'. split; [right; exact C1|exact C2].
    + apply ltbQ_false in E. destruct (IH w) as (A & B & C). set (r := fold_left (larger h) l w) in *. split; [exact A|]. split.
      * intros c' [->|H']; [lra|exact (B c' H')].
      * destruct C as [C|[C (c' & C1 & C2)]]; [left; exact C|right]. split; [exact C|]. exists c'. split; [right; exact C1|exact C2].
Qed.
Lemma in_column : forall (rows : list (trow NumQ)) j c, In c (column rows j) <-> exists i, cell_at rows i j = Some c.
Proof.
  intros rows j c. unfold column, cell_at, cells. rewrite in_flat_map. split.
  - intros (row & Hr & Hc). apply In_nth_error in Hr as [i Hi]. exists i. rewrite Hi. destruct (nth_error (r_cells row) j); [|destruct Hc]. destruct Hc as [->|[]]. reflexivity.
  - intros [i Hi]. destruct (nth_error rows i) as [row|] eqn:En; [|destruct j; discriminate Hi]. exists row. split; [exact (nth_error_In _ _ En)|].
    unfold cid in *. rewrite Hi. left. reflexivity.
Qed.
Definition reqs (h : heap NumQ) (rows : list (trow NumQ)) (cols : nat) : list Q :=
  map (fun j => fold_left (larger (F:=NumQ) h) (column rows j) (@zero NumQ)) (seq 0 cols).
Lemma reqs_spec : forall h rows cols, List.length (reqs h rows cols) = cols /\
  forall j r, nth_error (reqs h rows cols) j = Some r -> requested h rows j r.
Proof.
  intros h rows cols. unfold reqs. split; [rewrite map_length, seq_length; reflexivity|]. intros j r Hj.
  rewrite nth_error_map in Hj. destruct (nth_error (seq 0 cols) j) as [k|] eqn:Ek; [|discriminate Hj].
  assert (Hlt : (j < cols)%nat) by (rewrite <- (seq_length cols 0); apply nth_error_Some; congruence).
  rewrite (nth_error_nth' _ 0%nat) in Ek by (rewrite seq_length; exact Hlt). rewrite seq_nth in Ek by exact Hlt.
  injection Ek as Ek. simpl in Ek. subst k. cbv beta iota delta [option_map] in Hj. assert (Hj' : fold_left (larger (F:=NumQ) h) (column rows j) (@zero NumQ) = r) by congruence. clear Hj. assert (L := larger_spec h (column rows j) (@zero NumQ)). cbv zeta in L.
  rewrite Hj' in L. destruct L as (A & B & C). unfold requested. change (@zero NumQ) with 0 in *. split.
  - intros i c Hc. apply B. apply in_column. eauto.
  - destruct C as [C|[C (c & C1 & C2)]]; [right; exact C|left]. split; [exact C|]. apply in_column in C1 as [i Hi]. exists i, c. split; [exact Hi|exact C2].
Qed.
Definition good (l : list Q) : Prop := forall r, In r l -> 0 < r \/ r = 0.
Lemma reqs_good : forall h rows cols, good (reqs h rows cols).
Proof.
  intros h rows cols r Hr. apply In_nth_error in Hr as [j Hj]. destruct (proj2 (reqs_spec h rows cols) j r Hj) as [_ [[G _]|G]]; auto.
Qed.
Lemma space_used_spec : forall l (u : Q) n, good l ->
  fst (space_used (F:=NumQ) l u n) == u + sumQ l /\ snd (space_used (F:=NumQ) l u n) = (n + Z.of_nat (free_columns l))%Z.
Proof.
  induction l as [|r l IH]; intros u n Hg.
  - cbn. split; [ring|lia].
  - cbn [space_used]. change (@zero NumQ) with 0. assert (Hg' : good l) by (intros x Hx; apply Hg; right; exact Hx).
    unfold free_columns. cbn [filter]. destruct (Hg r (or_introl eq_refl)) as [G|G].
    + replace (@ltb NumQ 0 r) with true by (symmetry; apply ltbQ; exact G). destruct (IH (@add NumQ u r) n Hg') as [A B]. rewrite A, B.
      replace (Qeq_bool r 0) with false by (symmetry; apply not_true_iff_false; intro K; apply Qeq_bool_iff in K; lra).
      split; [change (u + r + sumQ l == u + (r + sumQ l)); ring|reflexivity].
    + subst r. replace (@ltb NumQ 0 0) with false by reflexivity. destruct (IH u (n + 1)%Z Hg') as [A B]. rewrite A, B.
      change (Qeq_bool 0 0) with true. cbv iota. cbn [List.length]. fold (free_columns l). split; [change (u + sumQ l == u + (0 + sumQ l)); ring|lia].
Qed.
(** The width of a column with request [r]. *)
Lemma widths_nth : forall h rows cols (W : Q) j r, nth_error (reqs h rows cols) j = Some r ->
  exists w, nth_error (widths (F:=NumQ) h rows cols W) j = Some w /\
    (0 < r -> w = r) /\ (r = 0 -> w == (W - sumQ (reqs h rows cols)) / inject_Z (Z.of_nat (free_columns (reqs h rows cols)))).
Proof.
  intros h rows cols W j r Hj. unfold widths. fold (reqs h rows cols).
  destruct (space_used_spec (reqs h rows cols) (@zero NumQ) 0%Z (reqs_good h rows cols)) as [A B].
  destruct (space_used (F:=NumQ) (reqs h rows cols) (@zero NumQ) 0%Z) as [used n] eqn:E. cbn [fst snd] in A, B. 
  set (k := free_columns (reqs h rows cols)) in *. rewrite Z.add_0_l in B. subst n.
  change (@zero NumQ) with 0 in A. destruct (Z.ltb_spec 0 (Z.of_nat k)) as [G|G].
  - eexists. split; [exact (map_nth_error _ j _ Hj)|]. change (@zero NumQ) with 0. split.
    + intros Hr. replace (@eqb NumQ r 0) with false; [reflexivity|]. symmetry. apply not_true_iff_false. intro K. apply eqbQ in K. lra.
    + intros ->. change (@eqb NumQ 0 0) with true. cbv iota. cbn [div sub of_Z NumQ]. rewrite A. 
      setoid_replace (0 + sumQ (reqs h rows cols)) with (sumQ (reqs h rows cols)) by ring. reflexivity.
  - exists r. split; [exact Hj|]. split; [reflexivity|]. intros ->. exfalso.
    assert (In 0 (filter (fun r => Qeq_bool r 0) (reqs h rows cols))) by (apply filter_In; split; [exact (nth_error_In _ _ Hj)|reflexivity]).
    unfold k, free_columns in G. destruct (filter _ _); [destruct H|cbn in G; lia].
Qed.

Section Thms.
Context (env : Env NumQ) {eng : Engine NumQ}.
Variables (st : Styled NumQ) (xrows : list (xrow NumQ)) (s s' : PS NumQ eng) (h : heap NumQ) (t : table NumQ).
Hypothesis HT : transformTable env st xrows s = (Some (h, t), s').

(** The width of the table. *)
Local Notation tw := (table_width (Width (SDim (t_sty t))) s).
Lemma tw_eq : (full_width t s : Q) = tw.
Proof.
  unfold full_width, table_width, page_now, sbind, query, sret. destruct (printableArea (ps_eng s)) as [[[x0 y0] x1] y1]. cbn.
  unfold page_effective_width. cbn. change (inject_Z 0) with 0.
  match goal with |- context[Qle_bool 0 ?w] => destruct (Qle_bool 0 w); destruct (Qle_bool w (x1 - x0)); reflexivity end.
Qed.

Lemma column_widths : exists req : list Q, List.length req = t_columnCount t /\
  forall j r, nth_error req j = Some r -> requested h (t_rows t) j r /\
    exists w : Q, (0 < r -> w = r) /\ (r = 0 -> w == (tw - sumQ req) / inject_Z (Z.of_nat (free_columns req))) /\
      forall i c, cell_at (t_rows t) i j = Some c -> c_width (deref h c) = w.
Proof.
  destruct (transform_spec env st xrows s _ _ HT) as (h1 & t1 & h0 & rows0 & E & _ & Src & Sp & Wd & _). injection E as <- <-. rewrite tw_eq in Wd.
  exists (reqs h (t_rows t) (t_columnCount t)). destruct (reqs_spec h (t_rows t) (t_columnCount t)) as [A B]. split; [exact A|].
  intros j r Hj. split; [exact (B j r Hj)|]. destruct (widths_nth h (t_rows t) (t_columnCount t) tw j r Hj) as (w & W1 & W2 & W3).
  exists w. split; [exact W2|]. split; [exact W3|]. intros i c Hc. exact (Wd i j c w Hc W1).
Qed.

Lemma sum_fill : forall (d : Q) l ws, List.length ws = List.length l -> good l ->
  (forall j r w, nth_error l j = Some r -> nth_error ws j = Some w -> (0 < r -> w == r) /\ (r = 0 -> w == d)) ->
  sumQ ws == sumQ l + inject_Z (Z.of_nat (free_columns l)) * d.
Proof.
  intros d. induction l as [|r l IH]; intros [|w ws] Hl Hg H; try discriminate Hl.
  - cbn. ring.
  - cbn [sumQ fold_right]. fold (sumQ ws) (sumQ l). rewrite IH; [|injection Hl as Hl; exact Hl|intros x Hx; apply Hg; right; exact Hx|intros j; exact (H (S j))].
    destruct (H 0%nat r w eq_refl eq_refl) as [H1 H2]. unfold free_columns at 2. cbn [filter]. destruct (Hg r (or_introl eq_refl)) as [G|G].
    + replace (Qeq_bool r 0) with false by (symmetry; apply not_true_iff_false; intro K; apply Qeq_bool_iff in K; lra).
      fold (free_columns l). rewrite (H1 G). ring.
    + subst r. change (Qeq_bool 0 0) with true. cbv iota. cbn [List.length]. fold (free_columns l). rewrite (H2 eq_refl).
      rewrite Nat2Z.inj_succ, <- Z.add_1_l, inject_Z_plus. change (inject_Z 1) with 1. ring.
Qed.
Lemma fills : forall i, (i < List.length (t_rows t))%nat ->
  (exists j, (j < t_columnCount t)%nat /\ forall i' c, cell_at (t_rows t) i' j = Some c -> (ColumnWidth (c_sty (deref h c)) : Q) <= 0) ->
  sumQ (map (fun c => c_width (deref h c) : Q) (cells (t_rows t) i)) == tw.
Proof.
  intros i Hi (j0 & Hj0 & Hfree).
  destruct (transform_spec env st xrows s _ _ HT) as (h1 & t1 & h0 & rows0 & E & _ & Src & Sp & Wd & _). injection E as <- <-. rewrite tw_eq in Wd.
  set (req := reqs h (t_rows t) (t_columnCount t)). destruct (reqs_spec h (t_rows t) (t_columnCount t)) as [A B]. fold req in A, B.
  assert (K : (0 < free_columns req)%nat).
  { destruct (nth_error req j0) as [r|] eqn:Er; [|apply nth_error_None in Er; lia].
    destruct (B j0 r Er) as [_ [[G (i' & c & G1 & G2)]|G]]; [exfalso; specialize (Hfree i' c G1); rewrite G2 in Hfree; lra|].
    subst r. assert (In 0 (filter (fun r => Qeq_bool r 0) req)) by (apply filter_In; split; [exact (nth_error_In _ _ Er)|reflexivity]).
    unfold free_columns. destruct (filter _ _); [destruct H|cbn; lia]. }
  assert (Hpos : ~ inject_Z (Z.of_nat (free_columns req)) == 0).
  { change 0 with (inject_Z 0). rewrite inject_Z_injective. lia. }
  rewrite (sum_fill ((tw - sumQ req) / inject_Z (Z.of_nat (free_columns req))) req).
  - field. exact Hpos.
  - rewrite map_length, A. exact (S_rect _ _ _ _ _ Sp i Hi).
  - apply reqs_good.
  - intros j r w Hr Hw. rewrite nth_error_map in Hw. destruct (nth_error (cells (t_rows t) i) j) as [c|] eqn:Ec; [|discriminate Hw].
    injection Hw as <-. destruct (widths_nth h (t_rows t) (t_columnCount t) tw j r Hr) as (w & W1 & W2 & W3). rewrite (Wd i j c w Ec W1).
    split; [intros G; rewrite (W2 G); reflexivity|exact W3].
Qed.
Lemma fold_sum : forall (f : cid -> Q) l (a : Q), fold_left (fun w c => @add NumQ w (f c)) l a == a + sumQ (map f l).
Proof. intros f. induction l as [|c l IH]; intros a; cbn [fold_left map]; [change (a == a + 0); ring|]. rewrite IH. change (a + f c + sumQ (map f l) == a + (f c + sumQ (map f l))). ring. Qed.

Lemma nonneg_widths : forall req : list Q, List.length req = t_columnCount t ->
  (forall j r, nth_error req j = Some r -> requested h (t_rows t) j r) ->
  sumQ req <= tw -> forall i j c, cell_at (t_rows t) i j = Some c -> 0 <= (c_width (deref h c) : Q).
Proof.
  intros req Hl Hreq Hsum i j c Hc.
  destruct (transform_spec env st xrows s _ _ HT) as (h1 & t1 & h0 & rows0 & E & _ & Src & Sp & Wd & _). injection E as <- <-. rewrite tw_eq in Wd.
  destruct (reqs_spec h (t_rows t) (t_columnCount t)) as [A B].
  assert (Same : forall j r r', requested h (t_rows t) j r -> requested h (t_rows t) j r' -> r == r').
  { intros k r r' [P1 P2] [Q1 Q2]. destruct P2 as [[P2 (a & ca & Pa & Pb)]|P2], Q2 as [[Q2 (b & cb & Qa & Qb)]|Q2].
    - assert (G1 := Q1 a ca Pa). assert (G2 := P1 b cb Qa). cbv beta in *. rewrite Pb in G1. rewrite Qb in G2. lra.
    - assert (G1 := Q1 a ca Pa). cbv beta in G1. rewrite Pb in G1. subst r'. lra.
    - assert (G2 := P1 b cb Qa). cbv beta in G2. rewrite Qb in G2. subst r. lra.
    - subst. reflexivity. }
  assert (SumEq : forall l l' : list Q, List.length l = List.length l' -> (forall j r r', nth_error l j = Some r -> nth_error l' j = Some r' -> r == r') -> sumQ l == sumQ l').
  { clear. induction l as [|x l IH]; intros [|y l'] H H2; try discriminate H; [reflexivity|]. cbn. fold (sumQ l) (sumQ l').
    rewrite (IH l') by (try (injection H as H; exact H); intros j; exact (H2 (S j))). rewrite (H2 0%nat x y eq_refl eq_refl). reflexivity. }
  assert (Es : sumQ req == sumQ (reqs h (t_rows t) (t_columnCount t))).
  { apply SumEq; [congruence|]. intros k r r' H1 H2. exact (Same k r r' (Hreq k r H1) (B k r' H2)). }
  destruct (cell_at_length _ _ _ _ Hc) as [L1 L2]. rewrite (S_rect _ _ _ _ _ Sp i L1) in L2.
  destruct (nth_error (reqs h (t_rows t) (t_columnCount t)) j) as [r|] eqn:Er; [|apply nth_error_None in Er; lia].
  destruct (widths_nth h (t_rows t) (t_columnCount t) tw j r Er) as (w & W1 & W2 & W3). rewrite (Wd i j c w Hc W1).
  destruct (B j r Er) as [_ [[G _]|G]]; [rewrite (W2 G); lra|]. rewrite (W3 G).
  apply Qle_shift_div_l; [|rewrite Qmult_0_l; lra].
  change 0 with (inject_Z 0). rewrite <- Zlt_Qlt. subst r.
  assert (In 0 (filter (fun r => Qeq_bool r 0) (reqs h (t_rows t) (t_columnCount t)))) by (apply filter_In; split; [exact (nth_error_In _ _ Er)|reflexivity]).
  unfold free_columns. destruct (filter _ _); [destruct H|cbn; lia].
Qed.

(** ** Heights *)
Lemma row_min_spec : forall (f : cid -> Q) l (a : Q), let r := fold_left (fun m c => if @ltb NumQ m (f c) then f c else m) l a in
  a <= r /\ (forall c, In c l -> f c <= r) /\ (r = a \/ exists c, In c l /\ r = f c).
Proof.
  intros f. induction l as [|c l IH]; intros a r; subst r; cbn [fold_left].
  - split; [lra|]. split; [intros ? []|left; reflexivity].
  - destruct (@ltb NumQ a (f c)) eqn:E.
    + apply ltbQ in E. destruct (IH (f c)) as (A & B & C). split; [lra|]. split; [intros c' [<-|H']; [exact A|exact (B c' H')]|].
      right. destruct C as [C|(c' & C1 & C2)]; [exists c; split; [left; reflexivity|exact C]|exists c'; split; [right; exact C1|exact C2]].
    + apply ltbQ_false in E. destruct (IH a) as (A & B & C). split; [exact A|]. split; [intros c' [<-|H']; [lra|exact (B c' H')]|].
      destruct C as [C|(c' & C1 & C2)]; [left; exact C|right; exists c'; split; [right; exact C1|exact C2]].
Qed.
Lemma row_heights : forall row, In row (t_rows t) ->
  (forall c, In c (r_cells row) -> c_height (deref h c) = r_height row /\ (c_minHeight (deref h c) : Q) <= r_height row) /\
  0 <= (r_height row : Q) /\
  ((r_height row : Q) = 0 \/ exists c, In c (r_cells row) /\ r_height row = c_minHeight (deref h c)).
Proof.
  intros row Hr. destruct (transform_spec env st xrows s _ _ HT) as (h1 & t1 & h0 & rows0 & E & _ & Src & Sp & _ & Hh & _). injection E as <- <-.
  destruct (Hh row Hr) as [H1 H2]. destruct (row_min_spec (fun c => c_minHeight (deref h c)) (r_cells row) (@zero NumQ)) as (A & B & C).
  unfold row_min_height in H1. cbv zeta in H1. change (@zero NumQ) with 0 in *. rewrite <- H1 in *. split; [|split; [exact A|exact C]].
  intros c Hc. split; [exact (H2 c Hc)|exact (B c Hc)].
Qed.
Lemma in_flat_row : forall c, In c (flat_map r_cells (t_rows t)) -> exists row, In row (t_rows t) /\ In c (r_cells row).
Proof. intros c H. apply in_flat_map in H as (row & A & B). eauto. Qed.
Lemma own_height : forall c, In c (flat_map r_cells (t_rows t)) -> authored h c = true -> 0 < (Height (SDim (c_sty (deref h c))) : Q) ->
  (Height (SDim (c_sty (deref h c))) : Q) <= c_height (deref h c).
Proof.
  intros c Hc Ha Hh. destruct (transform_spec env st xrows s _ _ HT) as (h1 & t1 & h0 & rows0 & E & _ & Src & Sp & _ & _ & Ms). injection E as <- <-.
  cbv zeta in Ms. destruct Ms as (_ & Mo & _). destruct (in_flat_row c Hc) as (row & R1 & R2). destruct (row_heights row R1) as (G & _).
  destruct (G c R2) as [G1 G2]. rewrite G1, <- (Mo c Hc Ha); [exact G2|]. unfold own. change (@zero NumQ) with 0. apply ltbQ. exact Hh.
Qed.
Lemma sum_lower : forall (f : cid -> Q) (d : Q) l, (forall c, In c l -> d <= f c) -> inject_Z (Z.of_nat (List.length l)) * d <= sumQ (map f l).
Proof.
  intros f d. induction l as [|c l IH]; intros H; [change (0 * d <= 0); rewrite Qmult_0_l; apply Qle_refl|]. cbn [List.length map sumQ fold_right]. fold (sumQ (map f l)).
  rewrite Nat2Z.inj_succ, <- Z.add_1_l, inject_Z_plus. assert (G1 := H c (or_introl eq_refl)). assert (G2 := IH (fun c' H' => H c' (or_intror H'))).
  change (inject_Z 1) with 1. setoid_replace ((1 + inject_Z (Z.of_nat (List.length l))) * d) with (d + inject_Z (Z.of_nat (List.length l)) * d) by ring. lra.
Qed.
Lemma tall_enough : forall c th, In (c, th) (fst (measure env h (filter (authored h) (flat_map r_cells (t_rows t))) s)) ->
  (th : Q) + QTop (Padding (SBox (c_sty (deref h c)))) + QBottom (Padding (SBox (c_sty (deref h c)))) <= snd (cell_dim h c).
Proof.
  intros c th Hm. destruct (transform_spec env st xrows s _ _ HT) as (h1 & t1 & h0 & rows0 & E & _ & Src & Sp & _ & _ & Ms). injection E as <- <-.
  cbv zeta in Ms. destruct Ms as (_ & _ & Mt).
  assert (Hin := measure_keys env _ _ _ _ _ Hm). assert (Hown := measure_own env _ _ _ _ _ Hm). apply filter_In in Hin as [Hc Ha].
  assert (Tg : targets h c = c :: c_spansRows (deref h c)) by (unfold targets; rewrite Hown; reflexivity).
  set (x := deref h c) in *. unfold cell_dim. fold x. cbn [snd]. rewrite (fold_sum (fun sc => c_height (deref h sc)) (c_spansRows x) (c_height x)).
  set (d := share x th : Q).
  assert (All : forall p, In p (c :: c_spansRows x) -> d <= c_height (deref h p)).
  { intros p Hp. rewrite <- Tg in Hp. assert (Mp := Mt c th p Hm Hp). fold x in Mp. unfold d. rewrite <- Mp.
    assert (Hrow : exists row, In row (t_rows t) /\ In p (r_cells row)).
    { rewrite Tg in Hp. destruct Hp as [<-|Hp]; [exact (in_flat_row c Hc)|]. apply flat_in_cells in Hc as [i Hi].
      destruct (owned env st xrows s s' h t HT i c Hi Ha) as (_ & _ & _ & _ & O5). apply In_nth_error in Hp as [n Hn].
      destruct (O5 n p Hn) as [O _]. apply in_flat_row. apply (in_cells_flat _ _ _ O). }
    destruct Hrow as (row & R1 & R2). destruct (row_heights row R1) as (G & _). destruct (G p R2) as [G1 G2]. rewrite G1. exact G2. }
  assert (L := sum_lower (fun p => c_height (deref h p)) d (c :: c_spansRows x) All).
  cbn [map sumQ fold_right] in L. fold (sumQ (map (fun p => c_height (deref h p) : Q) (c_spansRows x))) in L. fold x in L.
  eapply Qle_trans; [|exact L]. unfold d, share. cbn [List.length]. cbn [add div of_Z NumQ].
  rewrite Nat2Z.inj_succ, <- Z.add_1_l.
  apply Qle_lteq. right. set (n := inject_Z _). field. unfold n. change 0 with (inject_Z 0). rewrite inject_Z_injective. lia.
Qed.
Lemma all_measured : forall c, In c (flat_map r_cells (t_rows t)) -> authored h c = true -> (Height (SDim (c_sty (deref h c))) : Q) <= 0 ->
  exists th, In (c, th) (fst (measure env h (filter (authored h) (flat_map r_cells (t_rows t))) s)).
Proof.
  intros c Hc Ha Hh. apply (measure_complete env); [apply filter_In; auto|]. unfold own. change (@zero NumQ) with 0. apply ltbQ_false. exact Hh.
Qed.
End Thms.
