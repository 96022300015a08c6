(** The statements about tables, derived. *)
From Coq Require Import QArith Lia Permutation.
From Verif Require Import GoStr Num Style Class Instr Engine Layout Grid Table Lines Proc EngineFacts LayoutFacts TableView TableSpec TableFacts SpanFacts NormFacts WidthFacts HeightFacts TableMain.
Local Open Scope nat_scope.

Section Thms.
Context {F : Num} (env : Env F) {eng : Engine F}.
Variables (st : Styled F) (xrows : list (xrow F)) (s s' : PS F eng) (h : heap F) (t : table F).

Lemma no_panic : exists h t, fst (transformTable env st xrows s) = Some (h, t).
Proof.
  destruct (transformTable env st xrows s) as [r s1] eqn:E. destruct (transform_spec env st xrows s r s1 E) as (h1 & t1 & _ & _ & -> & _).
  exists h1, t1. reflexivity.
Qed.

Hypothesis HT : transformTable env st xrows s = (Some (h, t), s').

Lemma source : exists h0 rows0, Source (e_mut env) (e_mut_sel env) (t_sty t) xrows h0 rows0 /\ Spanned h0 rows0 h (t_rows t) (t_columnCount t).
Proof.
  destruct (transform_spec env st xrows s _ _ HT) as (h1 & t1 & h0 & rows0 & E & _ & Src & Sp & _). injection E as <- <-. eauto.
Qed.
Lemma rectangle :
  (forall i, i < List.length (t_rows t) -> List.length (cells (t_rows t) i) = t_columnCount t) /\
  (forall i j c, cell_at (t_rows t) i j = Some c -> c_rowIdx (deref h c) = i /\ c_cellIdx (deref h c) = j).
Proof. destruct source as (h0 & rows0 & _ & Sp). split; [exact (S_rect _ _ _ _ _ Sp)|exact (S_idx _ _ _ _ _ Sp)]. Qed.
Lemma tight : t_columnCount t = 0 \/ exists i c, cell_at (t_rows t) i (t_columnCount t - 1) = Some c /\ c_zero (deref h c) = false.
Proof. destruct source as (h0 & rows0 & _ & Sp). exact (S_tight _ _ _ _ _ Sp). Qed.

Lemma combine_content : forall rs n (l : list (xcell F)) a,
  map (fun kx => content (built (e_mut env) (e_mut_sel env) rs n (fst kx) (snd kx))) (combine (seq a (List.length l)) l) = map xcontent l.
Proof. intros rs n. induction l as [|[x cs r iss] l IH]; intros a; [reflexivity|]. cbn. rewrite IH. reflexivity. Qed.

Lemma content_unidx : forall (x : tcell F), content (unidx x) = content x.
Proof. reflexivity. Qed.
Lemma source_content : forall h0 rows0 i, Source (e_mut env) (e_mut_sel env) (t_sty t) xrows h0 rows0 ->
  map (fun c => content (deref h0 c)) (cells rows0 i) = map xcontent (xcells xrows i).
Proof.
  intros h0 rows0 i Src. rewrite <- (map_map (deref h0) content), (O_cells _ _ _ _ _ _ Src). unfold expected_cells, xcells.
  destruct (nth_error xrows i) as [[x l]|]; [|reflexivity]. rewrite map_map. apply combine_content.
Qed.
Lemma final_content : forall h0 rows0 i c, Spanned h0 rows0 h (t_rows t) (t_columnCount t) -> In c (cells rows0 i) ->
  content (deref h c) = content (deref h0 c) /\ c_sty (deref h c) = c_sty (deref h0 c).
Proof.
  intros h0 rows0 i c Sp Hc. assert (G := S_content _ _ _ _ _ Sp i c Hc).
  change (content (unidx (deref h c)) = content (deref h0 c) /\ c_sty (unidx (deref h c)) = c_sty (deref h0 c)). rewrite G. split; reflexivity.
Qed.
Lemma keeps_cells : forall i, map (fun c => content (deref h c)) (filter (authored h) (cells (t_rows t) i)) = map xcontent (xcells xrows i).
Proof.
  intros i. destruct source as (h0 & rows0 & Src & Sp). rewrite (S_authored _ _ _ _ _ Sp). rewrite <- (source_content h0 rows0 i Src).
  apply map_ext_in. intros c Hc. apply (final_content h0 rows0 i c Sp Hc).
Qed.
Lemma row_styles : forall i x l, nth_error xrows i = Some (XRow x l) ->
  exists row, nth_error (t_rows t) i = Some row /\
    r_sty row = (if i =? 0 then e_mut_sel env ($"first-row") x (t_sty t)
                 else if i =? List.length xrows - 1 then e_mut_sel env ($"last-row") x (t_sty t)
                 else e_mut env x (t_sty t)) /\
    forall k y cs rs iss, nth_error l k = Some (XCell y cs rs iss) ->
      exists c, nth_error (filter (authored h) (r_cells row)) k = Some c /\
        c_sty (deref h c) = (if k =? 0 then e_mut_sel env ($"first-cell") y (r_sty row)
                             else if k =? List.length l - 1 then e_mut_sel env ($"last-cell") y (r_sty row)
                             else e_mut env y (r_sty row)).
Proof.
  intros i x l Hi. destruct source as (h0 & rows0 & Src & Sp).
  assert (Hlt : i < List.length (t_rows t)).
  { assert (i < List.length xrows) by (apply nth_error_Some; congruence). assert (G := S_length _ _ _ _ _ Sp). rewrite (O_length _ _ _ _ _ _ Src) in G. lia. }
  destruct (nth_error (t_rows t) i) as [row|] eqn:En; [|apply nth_error_None in En; lia].
  exists row. split; [reflexivity|].
  assert (Y : r_sty row = rowSty_of (e_mut env) (e_mut_sel env) (t_sty t) (List.length xrows) i (XRow x l)).
  { rewrite <- (O_sty _ _ _ _ _ _ Src i _ Hi), <- (S_sty _ _ _ _ _ Sp i). unfold sty_at. rewrite En. reflexivity. }
  split; [exact Y|]. intros k y cs rs iss Hk.
  assert (A := S_authored _ _ _ _ _ Sp i). rewrite (cells_nth _ _ _ En) in A. rewrite A.
  assert (C := O_cells _ _ _ _ _ _ Src i). unfold expected_cells in C. rewrite Hi in C. cbn [xrow_cells] in C.
  assert (Hc : nth_error (combine (seq 0 (List.length l)) l) k = Some (k, XCell y cs rs iss)).
  { assert (G : forall l a k, nth_error l k = Some (XCell y cs rs iss) -> nth_error (combine (seq a (List.length l)) l) k = Some (a + k, XCell y cs rs iss)).
    { clear. induction l as [|z l IHl]; intros a [|k'] H; try discriminate H; simpl.
      - injection H as ->. rewrite Nat.add_0_r. reflexivity.
      - rewrite (IHl (S a) k' H). f_equal. f_equal. lia. }
    exact (G l 0 k Hk). }
  assert (D : nth_error (map (deref h0) (cells rows0 i)) k = Some (built (e_mut env) (e_mut_sel env) (rowSty_of (e_mut env) (e_mut_sel env) (t_sty t) (List.length xrows) i (XRow x l)) (List.length l) k (XCell y cs rs iss))).
  { rewrite C, nth_error_map, Hc. reflexivity. }
  rewrite nth_error_map in D. destruct (nth_error (cells rows0 i) k) as [c|] eqn:Ec; [|discriminate D]. injection D as D.
  exists c. split; [reflexivity|]. destruct (final_content h0 rows0 i c Sp (nth_error_In _ _ Ec)) as [_ ->]. rewrite D. cbn [built c_sty]. rewrite Y. reflexivity.
Qed.

Lemma all_styles : t_sty t = e_mut env st (ps_sty s) /\
  forall i x l, nth_error xrows i = Some (XRow x l) ->
  exists row, nth_error (t_rows t) i = Some row /\
    r_sty row = (if i =? 0 then e_mut_sel env ($"first-row") x (t_sty t)
                 else if i =? List.length xrows - 1 then e_mut_sel env ($"last-row") x (t_sty t)
                 else e_mut env x (t_sty t)) /\
    forall k y cs rs iss, nth_error l k = Some (XCell y cs rs iss) ->
      exists c, nth_error (filter (authored h) (r_cells row)) k = Some c /\
        c_sty (deref h c) = (if k =? 0 then e_mut_sel env ($"first-cell") y (r_sty row)
                             else if k =? List.length l - 1 then e_mut_sel env ($"last-cell") y (r_sty row)
                             else e_mut env y (r_sty row)).
Proof.
  split; [|exact row_styles]. destruct (transform_spec env st xrows s _ _ HT) as (h1 & t1 & h0 & rows0 & E & A & _). injection E as <- <-. exact A.
Qed.

Lemma span_sub : forall n, span n - 1 = Z.to_nat (n - 1).
Proof. intros n. unfold span. lia. Qed.

Lemma owned : forall i c, In c (cells (t_rows t) i) -> authored h c = true ->
  let x := deref h c in
  List.length (c_spansCols x) = span (c_colSpan x) - 1 /\ List.length (c_spansRows x) = span (c_rowSpan x) - 1 /\
  NoDup (c_spansCols x ++ c_spansRows x) /\
  (forall p, In p (c_spansCols x) -> In p (cells (t_rows t) i) /\ c_spannedBy (deref h p) = Some c) /\
  (forall n p, nth_error (c_spansRows x) n = Some p -> In p (cells (t_rows t) (i + 1 + n)) /\ c_spannedBy (deref h p) = Some c).
Proof.
  intros i c Hc Ha. destruct source as (h0 & rows0 & Src & Sp). cbv zeta.
  assert (Hs := authored_source _ _ _ _ _ _ _ Sp Hc Ha). destruct (final_content h0 rows0 i c Sp Hs) as [Co _].
  injection Co as _ C1 C2. destruct (S_cols _ _ _ _ _ Sp i c Hs) as (A1 & A2 & A3). destruct (S_rows _ _ _ _ _ Sp i c Hs) as (B1 & B2).
  rewrite !span_sub, C1, C2. split; [exact A1|]. split; [exact B1|]. split; [|split].
  - apply NoDup_app_iff. split; [exact A2|]. split.
    + apply NoDup_nth_error. intros n m Hn Hm. destruct (nth_error (c_spansRows (deref h c)) n) as [p|] eqn:En; [|apply nth_error_None in En; lia].
      symmetry in Hm. destruct (B2 n p En) as [G1 _]. destruct (B2 m p Hm) as [G2 _].
      assert (G := in_two_rows _ _ _ _ (S_nodup _ _ _ _ _ Sp) G1 G2). lia.
    + intros p Hp Hr. apply In_nth_error in Hr as [n Hn]. destruct (A3 p Hp) as [G1 _]. destruct (B2 n p Hn) as [G2 _].
      assert (G := in_two_rows _ _ _ _ (S_nodup _ _ _ _ _ Sp) G1 G2). lia.
  - intros p Hp. destruct (A3 p Hp) as [G1 G2]. split; [exact G1|]. exact (proj1 (spannedBy_unidx _ _ _ _ G2)).
  - intros n p Hp. destruct (B2 n p Hp) as [G1 G2]. split; [exact G1|]. exact (proj1 (spannedBy_unidx _ _ _ _ G2)).
Qed.
Lemma owner : forall i p, In p (cells (t_rows t) i) ->
  match c_spannedBy (deref h p) with
  | None => True
  | Some c => authored h c = true /\
      ((In c (cells (t_rows t) i) /\ In p (c_spansCols (deref h c))) \/
       (exists r n, In c (cells (t_rows t) r) /\ nth_error (c_spansRows (deref h c)) n = Some p /\ i = r + 1 + n))
  end.
Proof.
  intros i p Hp. destruct source as (h0 & rows0 & Src & Sp). destruct (c_spannedBy (deref h p)) as [c|] eqn:Es; [|exact I].
  assert (Ha : authored h p = false) by (unfold authored; rewrite Es; reflexivity).
  destruct (S_others _ _ _ _ _ Sp i p Hp Ha) as [Z|(d & [[D1 D2]|(r & n & D1 & D2 & D3)])].
  - exfalso. assert (G : c_spannedBy (unidx (deref h p)) = Some c) by exact Es. rewrite Z in G. discriminate G.
  - destruct (S_cols _ _ _ _ _ Sp i d D1) as (_ & _ & A3). destruct (A3 p D2) as [_ U]. apply spannedBy_unidx in U as [U _].
    assert (d = c) by congruence. subst d. destruct (source_authored _ _ _ _ _ _ _ Sp D1) as [K1 K2]. split; [exact K2|]. left. auto.
  - destruct (S_rows _ _ _ _ _ Sp r d D1) as (_ & B2). destruct (B2 n p D2) as [_ U]. apply spannedBy_unidx in U as [U _].
    assert (d = c) by congruence. subst d. destruct (source_authored _ _ _ _ _ _ _ Sp D1) as [K1 K2]. split; [exact K2|]. right. exists r, n. auto.
Qed.
Lemma blank_fill : forall i p, In p (cells (t_rows t) i) -> authored h p = false -> c_iss (deref h p) = [] /\ c_sty (deref h p) = zero_styles.
Proof.
  intros i p Hp Ha. destruct source as (h0 & rows0 & Src & Sp).
  change (c_iss (unidx (deref h p)) = [] /\ c_sty (unidx (deref h p)) = zero_styles).
  destruct (S_others _ _ _ _ _ Sp i p Hp Ha) as [Z|(d & [[D1 D2]|(r & n & D1 & D2 & D3)])].
  - rewrite Z. auto.
  - destruct (S_cols _ _ _ _ _ Sp i d D1) as (_ & _ & A3). destruct (A3 p D2) as [_ U]. rewrite U. auto.
  - destruct (S_rows _ _ _ _ _ Sp r d D1) as (_ & B2). destruct (B2 n p D2) as [_ U]. rewrite U. auto.
Qed.
Lemma column_order : forall i, filter (fun p => authored h p || existsb (fun c => existsb (Nat.eqb p) (c_spansCols (deref h c))) (filter (authored h) (cells (t_rows t) i))) (cells (t_rows t) i)
    = flat_map (fun c => c :: c_spansCols (deref h c)) (filter (authored h) (cells (t_rows t) i)).
Proof. intros i. destruct source as (h0 & rows0 & Src & Sp). rewrite !(S_authored _ _ _ _ _ Sp i). apply (S_order _ _ _ _ _ Sp i). Qed.

Lemma in_source_x : forall h0 rows0 i x, Source (e_mut env) (e_mut_sel env) (t_sty t) xrows h0 rows0 -> In x (xcells xrows i) ->
  exists c, In c (cells rows0 i) /\ xspans x = (span (c_colSpan (deref h0 c)), span (c_rowSpan (deref h0 c))).
Proof.
  intros h0 rows0 i x Src Hx. assert (C := source_content h0 rows0 i Src). apply (in_map xcontent) in Hx. rewrite <- C in Hx.
  apply in_map_iff in Hx as (c & E & Hc). exists c. split; [exact Hc|]. destruct x as [y cs rs iss]. unfold content, xcontent in E. injection E as E1 E2 E3.
  cbn. congruence.
Qed.
Lemma in_source_c : forall h0 rows0 i c, Source (e_mut env) (e_mut_sel env) (t_sty t) xrows h0 rows0 -> In c (cells rows0 i) ->
  exists x, In x (xcells xrows i) /\ xspans x = (span (c_colSpan (deref h0 c)), span (c_rowSpan (deref h0 c))).
Proof.
  intros h0 rows0 i c Src Hc. assert (C := source_content h0 rows0 i Src). apply (in_map (fun c => content (deref h0 c))) in Hc. rewrite C in Hc.
  apply in_map_iff in Hc as (x & E & Hx). exists x. split; [exact Hx|]. destruct x as [y cs rs iss]. unfold content, xcontent in E. injection E as E1 E2 E3.
  cbn. congruence.
Qed.
Lemma row_count : forall m, List.length (t_rows t) <= m <->
  List.length xrows <= m /\ forall i x, In x (xcells xrows i) -> i + snd (xspans x) <= m.
Proof.
  intros m. destruct source as (h0 & rows0 & Src & Sp). assert (L := O_length _ _ _ _ _ _ Src). split.
  - intros Hm. assert (G := S_length _ _ _ _ _ Sp). split; [lia|]. intros i x Hx.
    destruct (in_source_x h0 rows0 i x Src Hx) as (c & Hc & E). rewrite E. cbn [snd].
    assert (Hi := in_cells_length _ _ _ Hc). destruct (S_rows _ _ _ _ _ Sp i c Hc) as (B1 & B2).
    unfold span. destruct (Z.to_nat (c_rowSpan (deref h0 c) - 1)) as [|n] eqn:En; [lia|].
    destruct (nth_error (c_spansRows (deref h c)) n) as [p|] eqn:Ep; [|apply nth_error_None in Ep; lia].
    destruct (B2 n p Ep) as [G1 _]. apply in_cells_length in G1. lia.
  - intros [H1 H2]. apply (S_least _ _ _ _ _ Sp); [lia|]. intros r c Hc. destruct (in_source_c h0 rows0 r c Src Hc) as (x & Hx & E).
    specialize (H2 r x Hx). rewrite E in H2. cbn [snd] in H2. unfold span in H2. lia.
Qed.

(** ** Positions *)
Lemma flat_pos : forall (G : cid -> list cid) zs l k c, nth_error l k = Some c ->
  forall n, n < List.length (G c) -> nth_error (flat_map G l ++ zs) (list_sum (map (fun c => List.length (G c)) (firstn k l)) + n) = nth_error (G c) n.
Proof.
  intros G zs. induction l as [|x l IH]; intros [|k] c Hk n Hn; try discriminate Hk.
  - injection Hk as <-. cbn [firstn map list_sum fold_right flat_map]. rewrite <- app_assoc, nth_error_app1 by exact Hn. reflexivity.
  - cbn [flat_map firstn map]. change (list_sum (List.length (G x) :: map (fun c => List.length (G c)) (firstn k l)))
      with (List.length (G x) + list_sum (map (fun c => List.length (G c)) (firstn k l))).
    rewrite <- app_assoc, nth_error_app2 by lia. simpl in Hk. rewrite <- (IH k c Hk n Hn). f_equal. lia.
Qed.
Lemma unreached_source : forall h0 rows0 i, Source (e_mut env) (e_mut_sel env) (t_sty t) xrows h0 rows0 -> unreached xrows i ->
  forall r0 c, In c (cells rows0 r0) -> r0 < i -> r0 + Z.to_nat (c_rowSpan (deref h0 c)) <= i.
Proof.
  intros h0 rows0 i Src Hu r c Hc Hr. destruct (in_source_c h0 rows0 r c Src Hc) as (x & Hx & E). specialize (Hu r x Hx Hr).
  rewrite E in Hu. cbn [snd] in Hu. unfold span in Hu. lia.
Qed.
Lemma tile : forall i k c, unreached xrows i -> nth_error (filter (authored h) (cells (t_rows t) i)) k = Some c ->
  c_cellIdx (deref h c) = list_sum (map (fun x => fst (xspans x)) (firstn k (xcells xrows i))) /\
  forall n, n < span (c_colSpan (deref h c)) - 1 ->
    exists p, cell_at (t_rows t) i (c_cellIdx (deref h c) + 1 + n) = Some p /\ nth_error (c_spansCols (deref h c)) n = Some p.
Proof.
  intros i k c Hu Hk. destruct source as (h0 & rows0 & Src & Sp). rewrite (S_authored _ _ _ _ _ Sp) in Hk.
  assert (Hc0 := nth_error_In _ _ Hk).
  assert (Hlt : i < List.length (t_rows t)) by (destruct (source_authored _ _ _ _ _ _ _ Sp Hc0) as [G _]; exact (in_cells_length _ _ _ G)).
  destruct (S_unreached _ _ _ _ _ Sp i Hlt (unreached_source h0 rows0 i Src Hu)) as [zs Hz].
  set (G := fun c => c :: c_spansCols (deref h c)) in *.
  assert (Pos : forall n, n < List.length (G c) -> cell_at (t_rows t) i (list_sum (map (fun c => List.length (G c)) (firstn k (cells rows0 i))) + n) = nth_error (G c) n).
  { intros n Hn. unfold cell_at. rewrite Hz. apply flat_pos; assumption. }
  assert (P0 := Pos 0 ltac:(simpl; lia)). rewrite Nat.add_0_r in P0. cbn [nth_error G] in P0.
  assert (Sum : list_sum (map (fun c => List.length (G c)) (firstn k (cells rows0 i))) = list_sum (map (fun x => fst (xspans x)) (firstn k (xcells xrows i)))).
  { assert (C := source_content h0 rows0 i Src). 
    assert (E : map (fun c => List.length (G c)) (cells rows0 i) = map (fun x => fst (xspans x)) (xcells xrows i)).
    { transitivity (map (fun q => span (snd (fst q))) (map (fun c => content (deref h0 c)) (cells rows0 i))).
      - rewrite map_map. apply map_ext_in. intros a Ha. destruct (S_cols _ _ _ _ _ Sp i a Ha) as (A1 & _ & _). unfold G. cbn [List.length content snd fst]. rewrite A1. unfold span. lia.
      - rewrite C, map_map. apply map_ext. intros [y cs rs iss]. reflexivity. }
    rewrite <- !firstn_map, E. reflexivity. }
  destruct (S_idx _ _ _ _ _ Sp _ _ _ P0) as [_ Ci]. rewrite Sum in Ci. split; [exact Ci|].
  intros n Hn. destruct (owned i c) as (O1 & _).
  { destruct (source_authored _ _ _ _ _ _ _ Sp Hc0) as [K1 K2]. exact K1. }
  { destruct (source_authored _ _ _ _ _ _ _ Sp Hc0) as [K1 K2]. exact K2. }
  rewrite <- O1 in Hn. destruct (nth_error (c_spansCols (deref h c)) n) as [p|] eqn:Ep; [|apply nth_error_None in Ep; unfold cid in *; lia].
  exists p. split; [|reflexivity]. rewrite Ci, <- Sum, <- Nat.add_assoc. rewrite Pos by (cbn [List.length G]; unfold cid in *; lia). exact Ep.
Qed.

(** ** No overlap *)
Lemma covered : forall i j c, simple_spans xrows -> In c (flat_map r_cells (t_rows t)) -> authored h c = true -> covers h c i j ->
  exists p, cell_at (t_rows t) i j = Some p /\ (p = c \/ c_spannedBy (deref h p) = Some c).
Proof.
  intros i j c [Hs1 Hs2] Hc Ha Hcov. destruct source as (h0 & rows0 & Src & Sp).
  apply flat_in_cells in Hc as [r Hr]. assert (H0 := authored_source _ _ _ _ _ _ _ Sp Hr Ha).
  apply In_nth_error in Hr as [k Hk]. destruct (S_idx _ _ _ _ _ Sp r k c Hk) as [I1 I2].
  unfold covers in Hcov. rewrite I1, I2 in Hcov. destruct Hcov as [Ci Cj].
  destruct (owned r c (nth_error_In _ _ Hk) Ha) as (O1 & O2 & O3 & O4 & O5).
  destruct (in_source_c h0 rows0 r c Src H0) as (x & Hx & Ex).
  destruct (final_content h0 rows0 r c Sp H0) as [Co _]. injection Co as _ Co1 Co2.
  rewrite <- Co1, <- Co2 in Ex.
  destruct (Nat.eq_dec (span (c_rowSpan (deref h c))) 1) as [R1|R1].
  - assert (i = r) by (rewrite O2, R1 in Ci; lia). subst i.
    destruct (Nat.eq_dec j k) as [->|Hjk]; [exists c; split; [exact Hk|left; reflexivity]|].
    assert (Hu : unreached xrows r).
    { intros r0 x0 Hx0 Hlt. destruct (Nat.le_gt_cases (r0 + snd (xspans x0)) r) as [|G]; [assumption|exfalso].
      assert (E := Hs2 r0 x0 r x Hx0 Hx (conj Hlt G)). rewrite E in Ex. injection Ex as Ex1 _.
      rewrite O1 in Cj. unfold cid in *. lia. }
    assert (Hn : exists m, nth_error (filter (authored h) (cells (t_rows t) r)) m = Some c).
    { apply In_nth_error. apply filter_In. split; [exact (nth_error_In _ _ Hk)|exact Ha]. }
    destruct Hn as [m Hm]. destruct (tile r m c Hu Hm) as [_ T]. rewrite I2 in T.
    destruct (T (j - k - 1)) as (p & P1 & P2); [rewrite O1 in Cj; unfold cid in *; lia|].
    replace (k + 1 + (j - k - 1)) with j in P1 by lia. exists p. split; [exact P1|]. right. apply O4. exact (nth_error_In _ _ P2).
  - assert (C1 : span (c_colSpan (deref h c)) = 1).
    { destruct (Hs1 r x Hx) as [G|G]; rewrite Ex in G; cbn [fst snd] in G; [exact G|contradiction]. }
    assert (j = k) by (rewrite O1, C1 in Cj; lia). subst j.
    destruct (Nat.eq_dec i r) as [->|Hir]; [exists c; split; [exact Hk|left; reflexivity]|].
    assert (Hst : forall r r' c c', In c (cells rows0 r) -> In c' (cells rows0 r') -> (1 < c_rowSpan (deref h0 c))%Z -> (1 < c_rowSpan (deref h0 c'))%Z ->
        r < r' -> r + Z.to_nat (c_rowSpan (deref h0 c)) <= r').
    { intros a b d e Hd He Sd Se Hab. destruct (Nat.le_gt_cases (a + Z.to_nat (c_rowSpan (deref h0 d))) b) as [|G]; [assumption|exfalso].
      destruct (in_source_c h0 rows0 a d Src Hd) as (xd & Xd & Ed). destruct (in_source_c h0 rows0 b e Src He) as (xe & Xe & Ee).
      assert (E := Hs2 a xd b xe Xd Xe). rewrite Ed, Ee in E. cbn [snd] in E. unfold span in E.
      assert (Q : a < b < a + Z.to_nat (Z.max 1 (c_rowSpan (deref h0 d)))) by lia. apply E in Q. injection Q as _ Q. lia. }
    destruct (nth_error (c_spansRows (deref h c)) (i - r - 1)) as [p|] eqn:Ep; [|apply nth_error_None in Ep; unfold cid in *; lia].
    assert (P := S_straight _ _ _ _ _ Sp Hst c r k (i - r - 1) p H0 Hk Ep). replace (r + 1 + (i - r - 1)) with i in P by lia.
    exists p. split; [exact P|]. right. apply (O5 _ _ Ep).
Qed.
Lemma disjoint : simple_spans xrows -> forall i j c c', In c (flat_map r_cells (t_rows t)) -> In c' (flat_map r_cells (t_rows t)) ->
  authored h c = true -> authored h c' = true -> covers h c i j -> covers h c' i j -> c = c'.
Proof.
  intros Hs i j c c' Hc Hc' Ha Ha' H1 H2. destruct (covered i j c Hs Hc Ha H1) as (p & P1 & P2). destruct (covered i j c' Hs Hc' Ha' H2) as (q & Q1 & Q2).
  assert (p = q) by congruence. subst q. unfold authored in Ha, Ha'. destruct P2 as [->|P2], Q2 as [->|Q2]; try congruence.
  - rewrite Q2 in Ha. discriminate Ha.
  - rewrite P2 in Ha'. discriminate Ha'.
Qed.
End Thms.
