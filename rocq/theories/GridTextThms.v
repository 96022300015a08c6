(** What the text says of a table read from a document (C104). *)
From Coq Require Import Lia Permutation.
From Verif Require Import GoStr GoFmt Num Style Class Instr Engine Layout Grid Table Lines Proc TableView TableFacts SpanFacts NormFacts TableMain TableThms TableDump GridTextSpec GridTextFacts.

Section Thms.
Context {F : Num} (env : Env F) {eng : Engine F}.
Variables (st : Styled F) (xrows : list (xrow F)) (s s' : PS F eng) (h : heap F) (t : table F).
Hypothesis HT : transformTable env st xrows s = (Some (h, t), s').
Local Notation grid := (map (fun row => map (entry_of h) (r_cells row)) (t_rows t)).
Lemma grid_row : forall i, nth i grid [] = map (entry_of h) (cells (t_rows t) i).
Proof.
  intros i. unfold cells. destruct (nth_error (t_rows t) i) as [row|] eqn:E.
  - apply nth_error_nth. exact (map_nth_error _ _ _ E).
  - apply nth_overflow. rewrite map_length. apply nth_error_None. exact E.
Qed.
Lemma grid_at : forall i j, at_pos grid i j = option_map (entry_of h) (cell_at (t_rows t) i j).
Proof.
  intros i j. unfold at_pos, cell_at, cells. rewrite nth_error_map. destruct (nth_error (t_rows t) i) as [row|]; cbn [option_map]; [apply nth_error_map|]. destruct j; reflexivity.
Qed.
Lemma cell_in : forall i j c, cell_at (t_rows t) i j = Some c -> In c (cells (t_rows t) i).
Proof. intros i j c H. exact (nth_error_In _ _ H). Qed.
Lemma in_cell : forall i c, In c (cells (t_rows t) i) -> exists j, cell_at (t_rows t) i j = Some c.
Proof. intros i c H. apply In_nth_error in H. exact H. Qed.
Lemma same_row : forall i i' c, In c (cells (t_rows t) i) -> In c (cells (t_rows t) i') -> i = i'.
Proof.
  intros i i' c H H'. apply in_cell in H as [j H]. apply in_cell in H' as [j' H']. destruct (rectangle env st xrows s s' h t HT) as [_ R].
  destruct (R _ _ _ H) as [A _], (R _ _ _ H') as [B _]. congruence.
Qed.
(** A cell the author wrote: its text shows its spans. *)
Lemma authored_mark : forall i c, In c (cells (t_rows t) i) -> authored h c = true -> mark_of h c = cell_mark (c_colSpan (deref h c)) (c_rowSpan (deref h c)).
Proof.
  intros i c Hc Ha. destruct (owned env st xrows s s' h t HT i c Hc Ha) as (L1 & L2 & _). cbv zeta in L1, L2. unfold mark_of, cell_mark. unfold authored in Ha.
  set (x := deref h c) in *. destruct (c_spannedBy x); [discriminate Ha|]. destruct (c_zero x); [discriminate Ha|]. unfold span in L1, L2.
  destruct (Z.ltb_spec 1 (c_colSpan x)), (Z.ltb_spec 1 (c_rowSpan x)), (c_spansCols x), (c_spansRows x); cbn [List.length] in L1, L2; try reflexivity; exfalso; lia.
Qed.
Lemma cell_authored : forall i c, In c (cells (t_rows t) i) -> is_cell (entry_of h c) = authored h c.
Proof.
  intros i c Hc. unfold is_cell, entry_of, mark_of, authored. cbn [snd]. set (x := deref h c). destruct (c_spannedBy x) as [o|] eqn:Eo; destruct (c_zero x) eqn:Ez; try reflexivity.
  destruct (c_spansCols x), (c_spansRows x); reflexivity.
Qed.
Lemma filter_map_ext : forall A B (f : A -> B) p q l, (forall a, In a l -> p (f a) = q a) -> filter p (map f l) = map f (filter q l).
Proof. intros A B f p q. induction l as [|a l IH]; intros H; [reflexivity|]. cbn [map filter]. rewrite (H a (or_introl eq_refl)), IH by (intros x Hx; apply H; right; exact Hx). destruct (q a); reflexivity. Qed.
Lemma shows_cells : forall i, map snd (filter is_cell (nth i grid [])) = map xmark (xcells xrows i).
Proof.
  intros i. rewrite grid_row, (filter_map_ext _ _ (entry_of h) is_cell (authored h)) by (intros c Hc; exact (cell_authored i c Hc)).
  assert (K := keeps_cells env st xrows s s' h t HT i). rewrite map_map.
  transitivity (map (fun q : list (instr F) * Z * Z => cell_mark (snd (fst q)) (snd q)) (map (fun c => content (deref h c)) (filter (authored h) (cells (t_rows t) i)))).
  - rewrite map_map. apply map_ext_in. intros c Hc. apply filter_In in Hc as [Hc Ha]. exact (authored_mark i c Hc Ha).
  - rewrite K, map_map. apply map_ext. intros [y cs rs iss]. reflexivity.
Qed.
Lemma spanned_mark : forall i p c, In p (cells (t_rows t) i) -> c_spannedBy (deref h p) = Some c -> mark_of h p = By (c_rowIdx (deref h c)) (c_cellIdx (deref h c)).
Proof.
  intros i p c Hp Ho. unfold mark_of. rewrite Ho. destruct (source env st xrows s s' h t HT) as (h0 & rows0 & Src & Sp).
  assert (Z : c_zero (deref h p) = false); [|rewrite Z; reflexivity]. change (c_zero (deref h p)) with (c_zero (unidx (deref h p))). change (c_spannedBy (unidx (deref h p)) = Some c) in Ho.
  destruct (S_others _ _ _ _ _ Sp i p Hp) as [E|(o & [[Hc Hi]|(r & n & Hc & Hi & _)])].
  - unfold authored. change (c_spannedBy (deref h p)) with (c_spannedBy (unidx (deref h p))). rewrite Ho. reflexivity.
  - rewrite E in Ho. discriminate Ho.
  - destruct (S_cols _ _ _ _ _ Sp i o Hc) as (_ & _ & G). destruct (G p Hi) as [_ ->]. reflexivity.
  - destruct (S_rows _ _ _ _ _ Sp r o Hc) as (_ & G). destruct (G n p Hi) as [_ ->]. reflexivity.
Qed.
Lemma owner_at : forall i p c, In p (cells (t_rows t) i) -> c_spannedBy (deref h p) = Some c ->
  authored h c = true /\ cell_at (t_rows t) (c_rowIdx (deref h c)) (c_cellIdx (deref h c)) = Some c.
Proof.
  intros i p c Hp Ho. assert (G := owner env st xrows s s' h t HT i p Hp). rewrite Ho in G. destruct G as [Ha G]. split; [exact Ha|].
  assert (exists r, In c (cells (t_rows t) r)) as [r Hr] by (destruct G as [[G _]|(r & n & G & _)]; eauto).
  apply in_cell in Hr as [j Hj]. destruct (rectangle env st xrows s s' h t HT) as [_ R]. destruct (R _ _ _ Hj) as [-> ->]. exact Hj.
Qed.
Definition belongs_to (c p : cid) : bool := match c_spannedBy (deref h p) with Some o => Nat.eqb o c | None => false end.
Lemma belonging_cells : forall i i' j' c, cell_at (t_rows t) i' j' = Some c ->
  belonging i' j' (nth i grid []) = List.length (filter (belongs_to c) (cells (t_rows t) i)).
Proof.
  intros i i' j' c Hc. unfold belonging. rewrite grid_row.
  rewrite (filter_map_ext _ _ (entry_of h) _ (belongs_to c)); [apply map_length|]. intros p Hp. unfold belongs_to, entry_of. cbn [snd].
  destruct (c_spannedBy (deref h p)) as [o|] eqn:Eo.
  - rewrite (spanned_mark i p o Hp Eo). destruct (owner_at i p o Hp Eo) as [_ Ho]. destruct (Nat.eqb_spec o c) as [->|N].
    + destruct (rectangle env st xrows s s' h t HT) as [_ R]. destruct (R _ _ _ Hc) as [-> ->]. rewrite !Nat.eqb_refl. reflexivity.
    + destruct (Nat.eqb_spec (c_rowIdx (deref h o)) i') as [E1|]; [|reflexivity]. destruct (Nat.eqb_spec (c_cellIdx (deref h o)) j') as [E2|]; [|reflexivity].
      rewrite E1, E2 in Ho. congruence.
  - unfold mark_of. rewrite Eo. destruct (c_zero (deref h p)); [reflexivity|]. destruct (c_spansCols (deref h p)), (c_spansRows (deref h p)); reflexivity.
Qed.
Lemma nodup_row : forall i, NoDup (cells (t_rows t) i).
Proof.
  intros i. destruct (source env st xrows s s' h t HT) as (h0 & rows0 & _ & Sp). assert (N := S_nodup _ _ _ _ _ Sp). unfold cells.
  destruct (nth_error (t_rows t) i) as [row|] eqn:E; [|constructor]. apply nth_error_split in E as (l1 & l2 & E & _). rewrite E in N. rewrite flat_map_app in N. cbn [flat_map] in N.
  apply NoDup_app_iff in N as (_ & N & _). apply NoDup_app_iff in N as (N & _ & _). exact N.
Qed.
Lemma count_row : forall i i' c, In c (cells (t_rows t) i') -> authored h c = true ->
  List.length (filter (belongs_to c) (cells (t_rows t) i)) =
  (if i =? i' then span (c_colSpan (deref h c)) - 1 else if (i' <? i) && (i <? i' + span (c_rowSpan (deref h c))) then 1 else 0).
Proof.
  intros i i' c Hc Ha. destruct (owned env st xrows s s' h t HT i' c Hc Ha) as (L1 & L2 & N & P1 & P2). cbv zeta in *.
  assert (Own : forall p, In p (filter (belongs_to c) (cells (t_rows t) i)) -> In p (cells (t_rows t) i) /\ c_spannedBy (deref h p) = Some c /\
    (i = i' /\ In p (c_spansCols (deref h c)) \/ exists n, nth_error (c_spansRows (deref h c)) n = Some p /\ i = i' + 1 + n)).
  { intros p Hp. apply filter_In in Hp as [Hp Hb]. unfold belongs_to in Hb. destruct (c_spannedBy (deref h p)) as [o|] eqn:Eo; [|discriminate Hb]. apply Nat.eqb_eq in Hb. subst o.
    split; [exact Hp|]. split; [reflexivity|]. assert (G := owner env st xrows s s' h t HT i p Hp). rewrite Eo in G. destruct G as [_ [[G1 G2]|(r & n & G1 & G2 & G3)]].
    - left. split; [exact (same_row _ _ _ G1 Hc)|exact G2].
    - right. exists n. split; [exact G2|]. rewrite (same_row _ _ _ Hc G1). exact G3. }
  assert (Nf : NoDup (filter (belongs_to c) (cells (t_rows t) i))) by (apply NoDup_filter, nodup_row).
  assert (B : forall p, In p (cells (t_rows t) i) -> c_spannedBy (deref h p) = Some c -> In p (filter (belongs_to c) (cells (t_rows t) i))).
  { intros p Hp Ho. apply filter_In. split; [exact Hp|]. unfold belongs_to. rewrite Ho. apply Nat.eqb_refl. }
  destruct (Nat.eqb_spec i i') as [->|Hi].
  - rewrite <- L1. apply Permutation_length, NoDup_Permutation; [exact Nf|exact (proj1 (proj1 (NoDup_app_iff _ _) N))|]. intros p. split.
    + intros Hp. destruct (Own p Hp) as (_ & _ & [[_ G]|(n & _ & G)]); [exact G|lia].
    + intros Hp. destruct (P1 p Hp) as [G1 G2]. exact (B p G1 G2).
  - destruct (Nat.ltb_spec i' i) as [H1|H1]; cbn [andb].
    + destruct (Nat.ltb_spec i (i' + span (c_rowSpan (deref h c)))) as [H2|H2].
      * destruct (nth_error (c_spansRows (deref h c)) (i - i' - 1)) as [p|] eqn:Ep; [|apply nth_error_None in Ep; lia].
        destruct (P2 _ _ Ep) as [G1 G2]. replace (i' + 1 + (i - i' - 1)) with i in G1 by lia.
        change 1 with (List.length [p]). apply Permutation_length, NoDup_Permutation; [exact Nf|repeat constructor; intros []|]. intros q. split.
        -- intros Hq. left. destruct (Own q Hq) as (_ & _ & [[G _]|(n & Gn & G)]); [lia|]. replace n with (i - i' - 1) in Gn by lia. congruence.
        -- intros [<-|[]]. exact (B p G1 G2).
      * destruct (filter (belongs_to c) (cells (t_rows t) i)) as [|q l] eqn:E; [reflexivity|]. exfalso. destruct (Own q (or_introl eq_refl)) as (_ & _ & [[G _]|(n & Gn & G)]); [lia|].
        assert (n < List.length (c_spansRows (deref h c))) by (apply nth_error_Some; congruence). lia.
    + destruct (filter (belongs_to c) (cells (t_rows t) i)) as [|q l] eqn:E; [reflexivity|]. exfalso. destruct (Own q (or_introl eq_refl)) as (_ & _ & [[G _]|(n & Gn & G)]); lia.
Qed.
Lemma cell_mark_spans : forall cs rs, mark_spans (cell_mark cs rs) = (span cs, span rs).
Proof.
  intros cs rs. unfold cell_mark. destruct (Z.ltb_spec 1 cs), (Z.ltb_spec 1 rs); cbn [andb mark_spans]; try reflexivity. unfold span.
  replace (Z.max 1 cs) with 1%Z by lia. replace (Z.max 1 rs) with 1%Z by lia. reflexivity.
Qed.
Theorem spans_text : xrows <> [] -> exists g, read_grid (dumpTableSpans h t) = Some g /\
  (forall m, List.length g <= m <-> List.length xrows <= m /\ forall i x, In x (xcells xrows i) -> i + snd (xspans x) <= m) /\
  (forall i, i < List.length g -> List.length (nth i g []) = List.length (nth 0 g [])) /\
  (forall i j e, at_pos g i j = Some e -> fst e = (i, j)) /\
  (forall i, map snd (filter is_cell (nth i g [])) = map xmark (xcells xrows i)) /\
  (forall i j p i' j', at_pos g i j = Some (p, By i' j') -> exists e, at_pos g i' j' = Some e /\ is_cell e = true) /\
  (forall i' j' p m, at_pos g i' j' = Some (p, m) -> is_cell (p, m) = true -> forall i,
     belonging i' j' (nth i g []) = if i =? i' then fst (mark_spans m) - 1 else if (i' <? i) && (i <? i' + snd (mark_spans m)) then 1 else 0).
Proof.
  intros Hx. assert (Hne : t_rows t <> []).
  { intro K. assert (G := proj1 (row_count env st xrows s s' h t HT 0)). rewrite K in G. destruct (G (le_n 0)) as [G' _]. destruct xrows; [congruence|cbn in G'; lia]. }
  exists grid. split; [exact (read_table h t Hne)|]. destruct (rectangle env st xrows s s' h t HT) as [Rl Ri].
  split; [intro m; rewrite map_length; apply (row_count env st xrows s s' h t HT)|].
  split. { intros i Hi. rewrite map_length in Hi. rewrite !grid_row, !map_length. rewrite (Rl i Hi). symmetry. apply Rl. lia. }
  split. { intros i j e He. rewrite grid_at in He. destruct (cell_at (t_rows t) i j) as [c|] eqn:E; [|discriminate He]. injection He as <-. destruct (Ri _ _ _ E) as [A B]. cbn. rewrite A, B. reflexivity. }
  split; [exact shows_cells|].
  split.
  - intros i j p i' j' He. rewrite grid_at in He. destruct (cell_at (t_rows t) i j) as [c|] eqn:E; [|discriminate He]. injection He as _ Hm.
    assert (Hc := cell_in _ _ _ E). destruct (c_spannedBy (deref h c)) as [o|] eqn:Eo.
    + rewrite (spanned_mark i c o Hc Eo) in Hm. injection Hm as <- <-. destruct (owner_at i c o Hc Eo) as [Ha Ho]. exists (entry_of h o). rewrite grid_at, Ho. split; [reflexivity|]. rewrite (cell_authored _ _ (cell_in _ _ _ Ho)). exact Ha.
    + exfalso. unfold mark_of in Hm. rewrite Eo in Hm. destruct (c_zero (deref h c)); [discriminate Hm|]. destruct (c_spansCols (deref h c)), (c_spansRows (deref h c)); discriminate Hm.
  - intros i' j' p m He Hcell i. rewrite grid_at in He. destruct (cell_at (t_rows t) i' j') as [c|] eqn:E; [|discriminate He]. injection He as Hp Hm.
    assert (Hc := cell_in _ _ _ E). assert (Ha : authored h c = true). { rewrite <- (cell_authored _ _ Hc). unfold is_cell in *. cbn [snd entry_of] in *. rewrite Hm. exact Hcell. }
    rewrite (belonging_cells i i' j' c E), (count_row i i' c Hc Ha). rewrite (authored_mark i' c Hc Ha) in Hm. subst m. rewrite cell_mark_spans. reflexivity.
Qed.
End Thms.
