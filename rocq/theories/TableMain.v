(** The combined facts about transformTable. *)
From Coq Require Import Lia Permutation.
From Verif Require Import GoStr Num Style Class Instr Engine Layout Grid Table Lines Proc EngineFacts TableView TableSpec TableFacts SpanFacts NormFacts WidthFacts HeightFacts.
Local Open Scope num_scope.

Section Main.
Context {F : Num} (env : Env F) {eng : Engine F}.
Implicit Types (h : heap F) (c : cid) (rows : list (trow F)).

Lemma authored_source : forall h0 rows0 h rows cols i c, Spanned h0 rows0 h rows cols -> In c (cells rows i) -> authored h c = true -> In c (cells rows0 i).
Proof. intros h0 rows0 h rows cols i c S Hc Ha. rewrite <- (S_authored _ _ _ _ _ S i). apply filter_In. auto. Qed.
Lemma source_authored : forall h0 rows0 h rows cols i c, Spanned h0 rows0 h rows cols -> In c (cells rows0 i) -> In c (cells rows i) /\ authored h c = true.
Proof. intros h0 rows0 h rows cols i c S Hc. rewrite <- (S_authored _ _ _ _ _ S i) in Hc. apply filter_In in Hc. exact Hc. Qed.
Lemma spannedBy_unidx : forall h p c n, unidx (deref h p) = spanned_cell c n -> c_spannedBy (deref h p) = Some c /\ authored h p = false.
Proof.
  intros h p c n H. assert (G : c_spannedBy (deref h p) = Some c).
  { change (c_spannedBy (unidx (deref h p)) = Some c). rewrite H. reflexivity. }
  split; [exact G|]. unfold authored. rewrite G. reflexivity.
Qed.
Lemma targets_disjoint : forall h0 rows0 h rows cols c c' x, Spanned h0 rows0 h rows cols ->
  In c (flat_map r_cells rows) -> In c' (flat_map r_cells rows) -> authored h c = true -> authored h c' = true ->
  In x (targets h c) -> In x (targets h c') -> c = c'.
Proof.
  intros h0 rows0 h rows cols c c' x S Hc Hc' Ac Ac' Hx Hx'.
  assert (G : forall d, In d (flat_map r_cells rows) -> authored h d = true -> In x (targets h d) ->
    (x = d /\ authored h x = true) \/ (c_spannedBy (deref h x) = Some d /\ authored h x = false)).
  { intros d Hd Ad Hxd. assert (Hxd' : x = d \/ In x (c_spansRows (deref h d))).
    { unfold targets in Hxd. destruct (own (deref h d)); simpl in Hxd; intuition. }
    destruct Hxd' as [->|Hr]; [left; auto|right]. apply flat_in_cells in Hd as [i Hi].
    assert (Hs := authored_source _ _ _ _ _ _ _ S Hi Ad). destruct (S_rows _ _ _ _ _ S i d Hs) as [_ R].
    apply In_nth_error in Hr as [n Hn]. destruct (R n x Hn) as [_ U]. exact (spannedBy_unidx _ _ _ _ U). }
  destruct (G c Hc Ac Hx) as [[-> A]|[A B]], (G c' Hc' Ac' Hx') as [[E1 E2]|[E1 E2]]; congruence.
Qed.

Lemma larger_sized : forall h h' w c, sized h h' -> larger h' w c = larger h w c.
Proof.
  intros h h' w c [_ Z]. unfold larger, cw. assert (G : c_sty (deref h' c) = c_sty (deref h c)).
  { change (c_sty (sizeless (deref h' c)) = c_sty (sizeless (deref h c))). rewrite Z. reflexivity. }
  rewrite G. reflexivity.
Qed.
Lemma widths_sized : forall h h' rows rows' cols width, sized h h' -> map r_cells rows' = map r_cells rows ->
  widths h' rows' cols width = widths h rows cols width.
Proof.
  intros h h' rows rows' cols width Z Hc. unfold widths.
  assert (G : map (fun j => fold_left (larger h') (column rows' j) zero) (seq 0 cols) = map (fun j => fold_left (larger h) (column rows j) zero) (seq 0 cols)).
  { apply map_ext. intro j. assert (Col : column rows' j = column rows j).
    { unfold column. revert rows Hc. induction rows' as [|r rows' IH]; intros [|r0 rows] Hc; try discriminate Hc; [reflexivity|].
      injection Hc as H1 H2. cbn [flat_map]. rewrite H1. rewrite (IH rows H2). reflexivity. }
    rewrite Col. clear Col. generalize (column rows j). intro l. generalize (@zero F). induction l as [|c l IH]; intro w; [reflexivity|]. cbn [fold_left].
    rewrite (larger_sized h h' w c Z). apply IH. }
  rewrite G. reflexivity.
Qed.

Definition full_width (t : table F) (s : PS F eng) : F := page_effective_width (fst (page_now (eng:=eng) s)) (Width (SDim (t_sty t))).

Lemma transform_spec : forall st xrows (s : PS F eng) r s', transformTable env st xrows s = (r, s') ->
  exists h t h0 rows0, r = Some (h, t) /\ t_sty t = e_mut env st (ps_sty s) /\
    Source (e_mut env) (e_mut_sel env) (t_sty t) xrows h0 rows0 /\ Spanned h0 rows0 h (t_rows t) (t_columnCount t) /\
    (forall i j c w, cell_at (t_rows t) i j = Some c ->
       nth_error (widths h (t_rows t) (t_columnCount t) (full_width t s)) j = Some w -> c_width (deref h c) = w) /\
    (forall row, In row (t_rows t) -> r_height row = row_min_height h row /\ forall c, In c (r_cells row) -> c_height (deref h c) = r_height row) /\
    (let ms := measure env h (filter (authored h) (flat_map r_cells (t_rows t))) s in
     snd ms = s' /\
     (forall c, In c (flat_map r_cells (t_rows t)) -> authored h c = true -> own (deref h c) = true ->
        c_minHeight (deref h c) = Height (SDim (c_sty (deref h c)))) /\
     (forall c th x, In (c, th) (fst ms) -> In x (targets h c) -> c_minHeight (deref h x) = share (deref h c) th)).
Proof.
  intros st xrows s r s' E. unfold transformTable in E. unfold sbind at 1, get at 1 in E. cbv iota beta in E.
  set (sty := e_mut env st (ps_sty s)) in *.
  assert (E' : (let '(h, t) := spanned (e_mut env) (e_mut_sel env) sty xrows in
     sbind page_now (fun pg => match assignColumnWidths t (page_effective_width pg (Width (SDim (t_sty t)))) h with
       | None => sret None | Some h => sbind (assignHeights env t h) (fun r => sret (Some r)) end)) s = (r, s')).
  { unfold spanned. destruct (buildTable _ _ _ _) as [hb tb]. destruct (processSpans tb hb) as [h t]. exact E. }
  clear E. destruct (spanned (e_mut env) (e_mut_sel env) sty xrows) as [h1 t1] eqn:Es.
  destruct (spanned_spec _ _ _ _ _ _ Es) as (h0 & rows0 & T1 & Src & Sp). unfold sbind in E'.
  assert (Epg : page_now (eng:=eng) s = (fst (page_now (eng:=eng) s), s)).
  { unfold page_now, sbind, query, sret. destruct (printableArea (ps_eng s)) as [[[? ?] ?] ?]. reflexivity. }
  rewrite Epg in E'. set (W := page_effective_width (fst (page_now s)) (Width (SDim (t_sty t1)))) in *.
  destruct (assignColumnWidths_spec t1 h1 W (S_nodup _ _ _ _ _ Sp) (S_rect _ _ _ _ _ Sp)) as (h2 & A1 & A2 & A3).
  rewrite A1 in E'. unfold assignHeights, sbind in E'. rewrite min_heights_rows_flat in E'.
  destruct (min_heights env (flat_map r_cells (t_rows t1)) h2 s) as [h3 s3] eqn:Em. cbn in E'.
  set (rows := map (fun row => with_row_height (row_min_height h3 row) row) (t_rows t1)) in *.
  injection E' as <- <-.
  assert (RC : map r_cells rows = map r_cells (t_rows t1)) by (unfold rows; rewrite map_map; reflexivity).
  assert (RS : map r_sty rows = map r_sty (t_rows t1)) by (unfold rows; rewrite map_map; reflexivity).
  assert (FM : flat_map r_cells rows = flat_map r_cells (t_rows t1)) by (rewrite !flat_map_concat_map, RC; reflexivity).
  assert (Sp2 := Spanned_sized _ _ _ _ _ _ _ Sp A2 eq_refl eq_refl).
  destruct (min_heights_spec env (flat_map r_cells (t_rows t1)) h2 s h3 s3 (S_nodup _ _ _ _ _ Sp)) as (M1 & M2 & M3 & M4 & M5); [|exact Em|].
  { intros c c' x Hc Hc' Ac Ac'. exact (targets_disjoint _ _ _ _ _ c c' x Sp2 Hc Hc' Ac Ac'). }
  destruct (set_heights_spec rows h3) as (H1 & H2 & H3); [rewrite FM; exact (S_nodup _ _ _ _ _ Sp)|].
  set (h4 := set_heights rows h3) in *.
  assert (Z24 : hsim h2 h4) by (eapply hsim_trans; eassumption).
  assert (Z14 : sized h1 h4) by (eapply sized_trans; [exact A2|apply hsim_sized; exact Z24]).
  assert (CA : forall i j, cell_at rows i j = cell_at (t_rows t1) i j).
  { intros i j. unfold cell_at, cells. assert (G : nth_error (map r_cells rows) i = nth_error (map r_cells (t_rows t1)) i) by (rewrite RC; reflexivity).
    rewrite !nth_error_map in G. destruct (nth_error rows i), (nth_error (t_rows t1) i); simpl in G; congruence. }
  assert (Min : forall c, c_minHeight (deref h4 c) = c_minHeight (deref h3 c)).
  { intro c. destruct (in_dec Nat.eq_dec c (flat_map r_cells rows)) as [G|G]; [|rewrite H3 by exact G; reflexivity].
    apply in_flat_map in G as (row & G1 & G2). rewrite (H2 row c G1 G2). reflexivity. }
  exists h4, (mkTable (t_sty t1) rows (t_columnCount t1)), h0, rows0. cbn [t_sty t_rows t_columnCount].
  split; [reflexivity|]. split; [exact T1|]. split; [rewrite T1; exact Src|].
  split; [exact (Spanned_sized _ _ _ _ _ _ _ Sp Z14 RC RS)|]. split; [|split].
  - intros i j c w Hc Hw. rewrite CA in Hc. rewrite (widths_sized h1 h4 _ _ _ _ Z14 RC) in Hw.
    assert (G := A3 i j c w Hc Hw). rewrite (hsim_field _ (@c_width F) (fun _ => eq_refl) h2 h4 c Z24), G. reflexivity.
  - intros row Hrow. split.
    + assert (G : row_min_height h4 row = row_min_height h3 row).
      { unfold row_min_height. generalize (@zero F). induction (r_cells row) as [|c l IH]; intro m; [reflexivity|]. cbn [fold_left]. rewrite Min. apply IH. }
      rewrite G. unfold rows in Hrow. apply in_map_iff in Hrow as (row0 & <- & _). reflexivity.
    + intros c Hc. rewrite (H2 row c Hrow Hc). reflexivity.
  - cbv zeta. rewrite FM. rewrite (filter_authored_hsim h2 h4 _ Z24), (measure_hsim env h2 h4 _ s Z24).
    split; [exact M1|]. split.
    + intros c Hc Ac Oc. rewrite Min. rewrite (hsim_field _ (@c_sty F) (fun _ => eq_refl) h2 h4 c Z24). apply M4.
      * exact Hc.
      * rewrite <- (authored_hsim h2 h4 c Z24). exact Ac.
      * unfold own in *. rewrite <- (hsim_field _ (@c_sty F) (fun _ => eq_refl) h2 h4 c Z24). exact Oc.
    + intros c th x Hc Hx. rewrite Min. rewrite (M5 c th x Hc).
      * unfold share. rewrite (hsim_field _ (@c_sty F) (fun _ => eq_refl) h2 h4 c Z24), (hsim_field _ (@c_spansRows F) (fun _ => eq_refl) h2 h4 c Z24). reflexivity.
      * unfold targets, own in *. rewrite (hsim_field _ (@c_sty F) (fun _ => eq_refl) h2 h4 c Z24), (hsim_field _ (@c_spansRows F) (fun _ => eq_refl) h2 h4 c Z24) in Hx. exact Hx.
Qed.
End Main.
