(** Proofs about building tables and processing spans. *)
From Coq Require Import Lia Permutation.
From Verif Require Import GoStr Num Style Class Instr Table TableView.

Section Heap.
Context {F : Num}.
Implicit Types (h : heap F) (c : cid) (rows : list (trow F)).

Lemma deref_store_eq : forall c x h, deref (store c x h) c = x.
Proof. intros. unfold deref, store. simpl. rewrite Nat.eqb_refl. reflexivity. Qed.
Lemma deref_store_ne : forall c c' x h, c' <> c -> deref (store c x h) c' = deref h c'.
Proof. intros. unfold deref, store. simpl. destruct (Nat.eqb_spec c' c); congruence. Qed.
Lemma deref_update_eq : forall c f h, deref (update c f h) c = f (deref h c).
Proof. intros. apply deref_store_eq. Qed.
Lemma deref_update_ne : forall c c' f h, c' <> c -> deref (update c f h) c' = deref h c'.
Proof. intros. apply deref_store_ne. assumption. Qed.
Lemma next_update : forall c f h, h_next (update c f h) = h_next h.
Proof. reflexivity. Qed.
Lemma alloc_eq : forall x h, alloc x h = (h_next h, snd (alloc x h)).
Proof. reflexivity. Qed.
Lemma next_alloc : forall x h, h_next (snd (alloc x h)) = S (h_next h).
Proof. reflexivity. Qed.
Lemma deref_alloc_eq : forall x h, deref (snd (alloc x h)) (h_next h) = x.
Proof. intros. unfold deref, alloc. simpl. rewrite Nat.eqb_refl. reflexivity. Qed.
Lemma deref_alloc_ne : forall x h c, c <> h_next h -> deref (snd (alloc x h)) c = deref h c.
Proof. intros. unfold deref, alloc. simpl. destruct (Nat.eqb_spec c (h_next h)); congruence. Qed.
Global Opaque alloc store update deref.

(** ** Building *)
Section Build.
Variables (mut : Styled F -> Styles F -> Styles F) (mut_sel : bytes -> Styled F -> Styles F -> Styles F).
Definition pick (first last : bytes) (st : Styled F) (sty : Styles F) (i n : nat) : Styles F :=
  if Nat.eqb i 0 then mut_sel first st sty else if Nat.eqb i (n - 1) then mut_sel last st sty else mut st sty.
Definition built (rowSty : Styles F) (n k : nat) (xc : xcell F) : tcell F :=
  match xc with
  | XCell st cs rs iss => mkCell (pick ($"first-cell") ($"last-cell") st rowSty k n) iss cs rs 0 0 zero zero zero None [] [] false
  end.

Lemma build_cells_spec : forall rowSty n xcells ic h h' l, build_cells mut mut_sel rowSty n ic xcells h = (h', l) ->
  h_next h' = h_next h + List.length xcells /\ l = seq (h_next h) (List.length xcells) /\
  (forall c, c < h_next h -> deref h' c = deref h c) /\
  (forall k xc, nth_error xcells k = Some xc -> deref h' (h_next h + k) = built rowSty n (ic + k) xc).
Proof.
  intros rowSty n xcells. induction xcells as [|[st cs rs iss] xcells IH]; intros ic h h' l E.
  - injection E as <- <-. simpl. repeat split; auto. intros [|k] xc Hk; discriminate Hk.
  - cbn [build_cells] in E. rewrite alloc_eq in E. cbv zeta in E.
    destruct (build_cells mut mut_sel rowSty n (S ic) xcells _) as [h2 rest] eqn:E2. injection E as <- <-.
    destruct (IH _ _ _ _ E2) as (I1 & I2 & I3 & I4). rewrite next_alloc in *.
    split; [simpl; lia|]. split; [simpl; rewrite I2; reflexivity|]. split.
    + intros c Hc. rewrite I3 by lia. rewrite deref_alloc_ne by lia. reflexivity.
    + intros [|k] xc Hk.
      * injection Hk as <-. rewrite !Nat.add_0_r. rewrite I3 by lia. rewrite deref_alloc_eq. reflexivity.
      * replace (h_next h + S k) with (S (h_next h) + k) by lia. replace (ic + S k) with (S ic + k) by lia. apply I4. exact Hk.
Qed.

Definition xsize (xrows : list (xrow F)) : nat := list_sum (map (fun r => match r with XRow _ l => List.length l end) xrows).
Definition rowSty_of (tabSty : Styles F) (n k : nat) (xr : xrow F) : Styles F :=
  match xr with XRow st _ => pick ($"first-row") ($"last-row") st tabSty k n end.
Definition xrow_cells (xr : xrow F) : list (xcell F) := match xr with XRow _ l => l end.

Lemma build_rows_spec : forall tabSty n xrows ir h h' rows, build_rows mut mut_sel tabSty n ir xrows h = (h', rows) ->
  h_next h' = h_next h + xsize xrows /\ flat_map r_cells rows = seq (h_next h) (xsize xrows) /\
  (forall c, c < h_next h -> deref h' c = deref h c) /\
  List.length rows = List.length xrows /\
  (forall k xr, nth_error xrows k = Some xr ->
     exists row, nth_error rows k = Some row /\ r_sty row = rowSty_of tabSty n (ir + k) xr /\ r_height row = zero /\
       map (deref h') (r_cells row) =
       map (fun kx => built (r_sty row) (List.length (xrow_cells xr)) (fst kx) (snd kx))
         (combine (seq 0 (List.length (xrow_cells xr))) (xrow_cells xr))).
Proof.
  intros tabSty n xrows. induction xrows as [|[st xcs] xrows IH]; intros ir h h' rows E.
  - injection E as <- <-. simpl. repeat split; auto. intros [|k] xc Hk; discriminate Hk.
  - cbn [build_rows] in E. destruct (build_cells mut mut_sel _ (List.length xcs) 0 xcs h) as [h1 cs] eqn:E1.
    destruct (build_rows mut mut_sel tabSty n (S ir) xrows h1) as [h2 rest] eqn:E2. injection E as <- <-.
    destruct (build_cells_spec _ _ _ _ _ _ _ E1) as (B1 & B2 & B3 & B4).
    destruct (IH _ _ _ _ E2) as (I1 & I2 & I3 & I4 & I5).
    split; [unfold xsize in *; simpl; lia|]. split.
    { cbn [flat_map r_cells]. rewrite I2, B2, B1. unfold xsize. cbn [map list_sum]. fold (xsize xrows). 
      change (list_sum (List.length xcs :: map (fun r => match r with XRow _ l => List.length l end) xrows)) with (List.length xcs + xsize xrows).
      rewrite seq_app. reflexivity. }
    split; [intros c Hc; rewrite I3 by lia; apply B3; exact Hc|]. split; [simpl; congruence|].
    intros [|k] xr Hk.
    + injection Hk as <-. eexists. split; [reflexivity|]. split; [rewrite Nat.add_0_r; reflexivity|]. split; [reflexivity|].
      cbn [r_cells r_sty xrow_cells]. rewrite B2.
      apply nth_ext with (d:=blank_cell) (d':=blank_cell).
      { rewrite !map_length, combine_length, !seq_length. lia. }
      intros k Hk. rewrite map_length, seq_length in Hk.
      assert (Hn : exists xc, nth_error xcs k = Some xc).
      { destruct (nth_error xcs k) eqn:En; [eauto|]. apply nth_error_None in En. lia. }
      destruct Hn as [xc Hxc].
      rewrite nth_indep with (d':=deref h2 0) by (rewrite map_length, seq_length; exact Hk).
      rewrite map_nth. rewrite seq_nth by exact Hk. rewrite I3 by lia. rewrite (B4 _ _ Hxc).
      symmetry. apply nth_error_nth. rewrite nth_error_map.
      assert (Hc : nth_error (combine (seq 0 (List.length xcs)) xcs) k = Some (k, xc)).
      { clear -Hxc. assert (G : forall l a k, nth_error l k = Some xc -> nth_error (combine (seq a (List.length l)) l) k = Some (a + k, xc)).
        { induction l as [|y l IHl]; intros a [|k'] H; try discriminate H; simpl.
          - injection H as <-. rewrite Nat.add_0_r. reflexivity.
          - rewrite (IHl (S a) k' H). f_equal. f_equal. lia. }
        exact (G xcs 0 k Hxc). }
      rewrite Hc. reflexivity.
    + destruct (I5 k xr Hk) as (row & R1 & R2 & R3 & R4). exists row. split; [exact R1|].
      split; [rewrite R2; f_equal; lia|]. split; assumption.
Qed.
End Build.

(** ** Column spans *)
Lemma with_spansCols_same : forall x : tcell F, with_spansCols (c_spansCols x) x = x.
Proof. intros []. reflexivity. Qed.
Lemma col_placeholders_spec : forall n c h h' ps, c < h_next h -> col_placeholders n c h = (h', ps) ->
  h_next h' = h_next h + n /\ ps = seq (h_next h) n /\
  (forall c', c' < h_next h -> c' <> c -> deref h' c' = deref h c') /\
  deref h' c = with_spansCols (c_spansCols (deref h c) ++ ps) (deref h c) /\
  (forall p, In p ps -> deref h' p = spanned_cell c (c_rowSpan (deref h c))).
Proof.
  intros n c. induction n as [|n IH]; intros h h' ps Hc E.
  - injection E as <- <-. simpl. rewrite app_nil_r, with_spansCols_same. repeat split; auto. contradiction.
  - cbn [col_placeholders] in E. rewrite alloc_eq in E. cbv zeta in E.
    match type of E with context [col_placeholders n c ?h1] => set (h1' := h1) in E end.
    destruct (col_placeholders n c h1') as [h2 ps2] eqn:E2. injection E as <- <-.
    assert (N1 : h_next h1' = S (h_next h)) by reflexivity.
    assert (D1 : forall c', c' < h_next h -> c' <> c -> deref h1' c' = deref h c').
    { intros. unfold h1'. rewrite deref_update_ne by assumption. apply deref_alloc_ne. lia. }
    assert (D2 : deref h1' c = with_spansCols (c_spansCols (deref h c) ++ [h_next h]) (deref h c)).
    { unfold h1'. rewrite deref_update_eq, deref_alloc_ne by lia. reflexivity. }
    assert (D3 : deref h1' (h_next h) = spanned_cell c (c_rowSpan (deref h c))).
    { unfold h1'. rewrite deref_update_ne by lia. apply deref_alloc_eq. }
    destruct (IH h1' h2 ps2) as (I1 & I2 & I3 & I4 & I5); [lia|exact E2|].
    rewrite N1 in *. split; [lia|]. split; [rewrite I2; reflexivity|]. split.
    { intros c' H1 H2. rewrite I3 by lia. apply D1; assumption. }
    split.
    { rewrite I4, D2. simpl. rewrite <- app_assoc. reflexivity. }
    intros p [<-|Hp]; [rewrite I3 by lia; exact D3|]. rewrite (I5 p Hp), D2. reflexivity.
Qed.

(** A cell followed by the placeholders of its columns. *)
Definition group h (c : cid) : list cid := c :: c_spansCols (deref h c).
Definition col_done h h' (c : cid) : Prop :=
  deref h' c = with_spansCols (c_spansCols (deref h' c)) (deref h c) /\
  List.length (c_spansCols (deref h' c)) = Z.to_nat (c_colSpan (deref h c) - 1) /\
  (forall p, In p (c_spansCols (deref h' c)) -> h_next h <= p < h_next h' /\ deref h' p = spanned_cell c (c_rowSpan (deref h c))).

Lemma col_span_cells_spec : forall l h h' l',
  NoDup l -> (forall c, In c l -> c < h_next h /\ c_spansCols (deref h c) = []) -> col_span_cells l h = (h', l') ->
  h_next h <= h_next h' /\
  (forall c, c < h_next h -> ~ In c l -> deref h' c = deref h c) /\
  (forall c, In c l -> col_done h h' c) /\
  l' = flat_map (group h') l /\ NoDup l' /\ (forall c, In c l' -> In c l \/ h_next h <= c < h_next h').
Proof.
  induction l as [|c l IH]; intros h h' l' ND Hl E.
  - injection E as <- <-. simpl. repeat split; auto; try contradiction.
  - cbn [col_span_cells] in E. inversion ND as [|? ? ND1 ND2]; subst. destruct (Hl c (or_introl eq_refl)) as [Hc Hs].
    set (x := deref h c) in *.
    assert (P : exists h1 ps, (if (c_colSpan x <=? 1)%Z then (h, []) else col_placeholders (Z.to_nat (c_colSpan x - 1)) c h) = (h1, ps) /\
      h_next h1 = h_next h + List.length ps /\ ps = seq (h_next h) (Z.to_nat (c_colSpan x - 1)) /\
      (forall c', c' < h_next h -> c' <> c -> deref h1 c' = deref h c') /\
      deref h1 c = with_spansCols ps x /\ (forall p, In p ps -> deref h1 p = spanned_cell c (c_rowSpan x))).
    { destruct (Z.leb_spec (c_colSpan x) 1).
      - exists h, []. replace (Z.to_nat (c_colSpan x - 1)) with 0 by lia. simpl. rewrite Nat.add_0_r. repeat split; auto; try contradiction.
        rewrite <- Hs. fold x. symmetry. apply with_spansCols_same.
      - destruct (col_placeholders (Z.to_nat (c_colSpan x - 1)) c h) as [h1 ps] eqn:E1.
        destruct (col_placeholders_spec _ _ _ _ _ Hc E1) as (A1 & A2 & A3 & A4 & A5).
        exists h1, ps. split; [reflexivity|]. split; [rewrite A2, seq_length; exact A1|]. split; [exact A2|]. split; [exact A3|].
        fold x in A4, A5. rewrite Hs in A4. split; assumption. }
    destruct P as (h1 & ps & P0 & P1 & P2 & P3 & P4 & P5).
    rewrite P0 in E. destruct (col_span_cells l h1) as [h2 rest] eqn:E2. injection E as <- <-.
    destruct (IH h1 h2 rest ND2) as (I1 & I2 & I3 & I4 & I5 & I6); [|exact E2|].
    { intros c' Hc'. destruct (Hl c' (or_intror Hc')) as [G1 G2]. split; [lia|].
      rewrite P3; [exact G2|exact G1|]. intros ->. contradiction. }
    assert (Dc : deref h2 c = with_spansCols ps x) by (rewrite I2; [exact P4|lia|exact ND1]).
    assert (Hps : forall p, In p ps -> h_next h <= p < h_next h1).
    { intros p Hp. rewrite P2 in Hp. apply in_seq in Hp. rewrite P2, seq_length in P1. lia. }
    assert (Dp : forall p, In p ps -> deref h2 p = spanned_cell c (c_rowSpan x)).
    { intros p Hp. rewrite I2; [apply P5; exact Hp|apply Hps; exact Hp|]. intro Hin.
      destruct (Hl p (or_intror Hin)) as [G _]. specialize (Hps p Hp). lia. }
    split; [lia|]. split.
    { intros c' H1 H2. rewrite I2; [|lia|simpl in H2; tauto]. apply P3; [exact H1|simpl in H2; intuition]. }
    split.
    { intros c' [<-|Hc'].
      - unfold col_done. rewrite Dc. cbn [c_spansCols with_spansCols]. fold x. split; [reflexivity|].
        split; [rewrite P2; apply seq_length|]. intros p Hp. split; [specialize (Hps p Hp); lia|apply Dp; exact Hp].
      - destruct (I3 c' Hc') as (G1 & G2 & G3). assert (Ne : c' <> c) by (intros ->; contradiction).
        destruct (Hl c' (or_intror Hc')) as [Hlt _].
        unfold col_done. rewrite (P3 c' Hlt Ne) in *. split; [exact G1|]. split; [exact G2|].
        intros p Hp. destruct (G3 p Hp) as [G4 G5]. split; [lia|exact G5]. }
    split.
    { cbn [flat_map]. unfold group at 1. rewrite Dc. cbn [c_spansCols with_spansCols]. rewrite I4. reflexivity. }
    split.
    { constructor.
      - intro Hin. apply in_app_or in Hin. destruct Hin as [Hin|Hin]; [specialize (Hps c Hin); lia|].
        destruct (I6 c Hin) as [G|G]; [contradiction|lia].
      - assert (Hnps : NoDup ps) by (rewrite P2; apply seq_NoDup). clear -Hnps I5 I6 Hps Hl.
        revert Hnps Hps. induction ps as [|p ps IHp]; intros; [exact I5|]. inversion Hnps; subst. simpl. constructor.
        + intro Hin. apply in_app_or in Hin. destruct Hin as [Hin|Hin]; [contradiction|].
          specialize (Hps p (or_introl eq_refl)). destruct (I6 p Hin) as [G|G]; [|lia].
          destruct (Hl p (or_intror G)) as [G' _]. lia.
        + apply IHp; [assumption|]. intros q Hq. apply Hps. right. exact Hq. }
    intros c' [<-|Hin]; [left; left; reflexivity|]. apply in_app_or in Hin. destruct Hin as [Hin|Hin].
    + right. specialize (Hps c' Hin). lia.
    + destruct (I6 c' Hin) as [G|G]; [left; right; exact G|right; lia].
Qed.

Lemma NoDup_app_iff : forall (a b : list cid), NoDup (a ++ b) <-> NoDup a /\ NoDup b /\ forall x, In x a -> ~ In x b.
Proof.
  induction a as [|x a IH]; intros b; simpl.
  - split; [intro H; repeat split; auto; constructor|tauto].
  - split.
    + intro H. inversion H; subst. rewrite in_app_iff in H2. apply IH in H3 as (A & B & C).
      repeat split; [constructor; tauto|exact B|]. intros y [<-|Hy] Hb; [tauto|exact (C y Hy Hb)].
    + intros (A & B & C). inversion A; subst. constructor.
      * rewrite in_app_iff. intros [H|H]; [tauto|exact (C x (or_introl eq_refl) H)].
      * apply IH. repeat split; auto.
Qed.

Lemma processColumnSpans_spec : forall rows h h' rows',
  NoDup (flat_map r_cells rows) -> (forall c, In c (flat_map r_cells rows) -> c < h_next h /\ c_spansCols (deref h c) = []) ->
  processColumnSpans rows h = (h', rows') ->
  h_next h <= h_next h' /\
  (forall c, c < h_next h -> ~ In c (flat_map r_cells rows) -> deref h' c = deref h c) /\
  (forall c, In c (flat_map r_cells rows) -> col_done h h' c) /\
  rows' = map (fun r => with_cells (flat_map (group h') (r_cells r)) r) rows /\
  NoDup (flat_map r_cells rows') /\
  (forall c, In c (flat_map r_cells rows') -> In c (flat_map r_cells rows) \/ h_next h <= c < h_next h').
Proof.
  induction rows as [|row rows IH]; intros h h' rows' ND Hl E.
  - injection E as <- <-. simpl. repeat split; auto; try contradiction.
  - cbn [processColumnSpans] in E. cbn [flat_map] in *. apply NoDup_app_iff in ND as (ND1 & ND2 & ND3).
    destruct (col_span_cells (r_cells row) h) as [h1 l1] eqn:E1.
    destruct (processColumnSpans rows h1) as [h2 rest] eqn:E2. injection E as <- <-.
    destruct (col_span_cells_spec _ _ _ _ ND1 (fun c H => Hl c (in_or_app _ _ _ (or_introl H))) E1) as (A1 & A2 & A3 & A4 & A5 & A6).
    assert (Hrest : forall c, In c (flat_map r_cells rows) -> c < h_next h /\ ~ In c (r_cells row)).
    { intros c Hc. split; [apply Hl; apply in_or_app; right; exact Hc|]. intro G. exact (ND3 c G Hc). }
    destruct (IH h1 h2 rest ND2) as (I1 & I2 & I3 & I4 & I5 & I6); [|exact E2|].
    { intros c Hc. destruct (Hrest c Hc) as [G1 G2]. split; [lia|]. rewrite A2 by assumption.
      apply Hl. apply in_or_app; right; exact Hc. }
    assert (Keep : forall c, In c (r_cells row) -> deref h2 c = deref h1 c).
    { intros c Hc. apply I2; [|intro G; exact (ND3 c Hc G)]. specialize (Hl c (in_or_app _ _ _ (or_introl Hc))). lia. }
    assert (Fresh : forall c, h_next h <= c < h_next h1 -> deref h2 c = deref h1 c).
    { intros c Hc. apply I2; [lia|]. intro G. apply Hrest in G. lia. }
    split; [lia|]. split.
    { intros c H1 H2. rewrite in_app_iff in H2. rewrite I2; [apply A2; tauto|lia|tauto]. }
    split.
    { intros c Hc. apply in_app_or in Hc. destruct Hc as [Hc|Hc].
      - destruct (A3 c Hc) as (G1 & G2 & G3). unfold col_done. rewrite (Keep c Hc). split; [exact G1|]. split; [exact G2|].
        intros p Hp. destruct (G3 p Hp) as [G4 G5]. split; [lia|]. rewrite Fresh by exact G4. exact G5.
      - destruct (I3 c Hc) as (G1 & G2 & G3). destruct (Hrest c Hc) as [G4 G5]. unfold col_done. rewrite (A2 c G4 G5) in *.
        split; [exact G1|]. split; [exact G2|]. intros p Hp. destruct (G3 p Hp) as [G6 G7]. split; [lia|exact G7]. }
    assert (Gr : flat_map (group h1) (r_cells row) = flat_map (group h2) (r_cells row)).
    { clear -Keep. induction (r_cells row) as [|c l IHl]; [reflexivity|]. cbn [flat_map]. rewrite IHl; [|intros; apply Keep; right; assumption].
      unfold group. rewrite Keep by (left; reflexivity). reflexivity. }
    split; [cbn [map]; rewrite I4, A4, Gr; reflexivity|].
    assert (Dis : forall c, In c l1 -> ~ In c (flat_map r_cells rest)).
    { intros c H1 H2. apply A6 in H1. apply I6 in H2.
      destruct H1 as [H1|H1], H2 as [H2|H2].
      - exact (ND3 c H1 H2).
      - specialize (Hl c (in_or_app _ _ _ (or_introl H1))). lia.
      - apply Hrest in H2. lia.
      - lia. }
    cbn [flat_map r_cells with_cells]. split; [apply NoDup_app_iff; repeat split; assumption|].
    intros c Hc. rewrite in_app_iff. apply in_app_or in Hc. destruct Hc as [Hc|Hc].
    + apply A6 in Hc. destruct Hc as [Hc|Hc]; [tauto|right; lia].
    + apply I6 in Hc. destruct Hc as [Hc|Hc]; [tauto|right; lia].
Qed.

(** ** Row spans *)
Lemma zero_cells_spec : forall n h h' zs, zero_cells n h = (h', zs) ->
  h_next h' = h_next h + n /\ zs = seq (h_next h) n /\
  (forall c, c < h_next h -> deref h' c = deref h c) /\ (forall z, In z zs -> deref h' z = zero_cell).
Proof.
  induction n as [|n IH]; intros h h' zs E.
  - injection E as <- <-. simpl. repeat split; auto; try contradiction.
  - cbn [zero_cells] in E. rewrite alloc_eq in E. cbv zeta in E. destruct (zero_cells n _) as [h2 zs2] eqn:E2. injection E as <- <-.
    destruct (IH _ _ _ E2) as (I1 & I2 & I3 & I4). rewrite next_alloc in *.
    split; [lia|]. split; [simpl; rewrite I2; reflexivity|]. split.
    + intros c Hc. rewrite I3 by lia. apply deref_alloc_ne. lia.
    + intros z [<-|Hz]; [rewrite I3 by lia; apply deref_alloc_eq|apply I4; exact Hz].
Qed.

(** One iteration of the loop at table.go:203-229. *)
Definition row_step (ic : nat) (c : cid) (ri : nat) rows h : heap F * list (trow F) :=
  let '(rows, i) := if (List.length rows <=? ri)%nat then (rows ++ [empty_row], List.length rows) else (rows, ri) in
  let row := nth i rows empty_row in
  let '(h, cs) := pad_cells ic (r_cells row) h in
  let '(p, h) := alloc (spanned_cell c 0%Z) h in
  let h := update c (fun x => with_spansRows (c_spansRows x ++ [p]) x) h in
  (h, replace_nth i (with_cells (firstn ic cs ++ [p] ++ skipn ic cs) row) rows).
Lemma row_placeholders_step : forall n ic c ri rows h,
  row_placeholders (S n) ic c ri rows h = let '(h', rows') := row_step ic c ri rows h in row_placeholders n ic c (S ri) rows' h'.
Proof.
  intros. cbn [row_placeholders]. unfold row_step. destruct (_ <=? _); cbv zeta;
  destruct (pad_cells _ _ _) as [h1 cs]; destruct (alloc _ h1) as [p h2]; reflexivity.
Qed.

Definition sty_at rows (i : nat) : Styles F := match nth_error rows i with Some r => r_sty r | None => zero_styles end.

Lemma replace_nth_length : forall A i (x : A) l, List.length (replace_nth i x l) = List.length l.
Proof. intros A i x l. revert i. induction l as [|y l IH]; intros [|i]; simpl; auto. Qed.
Lemma nth_error_replace_eq : forall A i (x : A) l, i < List.length l -> nth_error (replace_nth i x l) i = Some x.
Proof. intros A i x l. revert i. induction l as [|y l IH]; intros [|i] H; simpl in *; try lia; [reflexivity|apply IH; lia]. Qed.
Lemma nth_error_replace_ne : forall A i j (x : A) l, j <> i -> nth_error (replace_nth i x l) j = nth_error l j.
Proof.
  intros A i j x l. revert i j. induction l as [|y l IH]; intros [|i] [|j] H; simpl; try reflexivity; try lia.
  apply IH. lia.
Qed.
Lemma flat_replace : forall new i row' rows row, nth_error rows i = Some row -> Permutation (r_cells row') (new ++ r_cells row) ->
  Permutation (flat_map r_cells (replace_nth i row' rows)) (new ++ flat_map r_cells rows).
Proof.
  intros new i row' rows. revert i. induction rows as [|y rows IH]; intros [|i] row H P; try discriminate H; simpl in *.
  - injection H as ->. rewrite app_assoc. apply Permutation_app_tail. exact P.
  - rewrite (IH i row H P). rewrite !app_assoc. apply Permutation_app_tail. apply Permutation_app_comm.
Qed.
Lemma cells_nth : forall rows i row, nth_error rows i = Some row -> cells rows i = r_cells row.
Proof. intros rows i row H. unfold cells. rewrite H. reflexivity. Qed.
Lemma cells_beyond : forall rows i, List.length rows <= i -> cells rows i = [].
Proof. intros rows i H. unfold cells. apply nth_error_None in H. rewrite H. reflexivity. Qed.
Lemma in_cells_flat : forall rows i c, In c (cells rows i) -> In c (flat_map r_cells rows).
Proof.
  intros rows i c H. unfold cells in H. destruct (nth_error rows i) eqn:E; [|contradiction].
  apply in_flat_map. exists t. split; [apply nth_error_In in E; exact E|exact H].
Qed.
Lemma flat_in_cells : forall rows c, In c (flat_map r_cells rows) -> exists i, In c (cells rows i).
Proof.
  intros rows c H. apply in_flat_map in H as (row & H1 & H2). apply In_nth_error in H1 as [i Hi].
  exists i. rewrite (cells_nth _ _ _ Hi). exact H2.
Qed.

Lemma row_step_spec : forall ic c ri rows h h' rows', c < h_next h -> ri <= List.length rows -> row_step ic c ri rows h = (h', rows') ->
  exists zs p, zs = seq (h_next h) (ic - List.length (cells rows ri)) /\ p = h_next h + List.length zs /\ h_next h' = S p /\
    (forall z, In z zs -> deref h' z = zero_cell) /\ deref h' p = spanned_cell c 0%Z /\
    deref h' c = with_spansRows (c_spansRows (deref h c) ++ [p]) (deref h c) /\
    (forall c', c' < h_next h -> c' <> c -> deref h' c' = deref h c') /\
    cells rows' ri = firstn ic (cells rows ri ++ zs) ++ [p] ++ skipn ic (cells rows ri ++ zs) /\
    (forall i, i <> ri -> cells rows' i = cells rows i) /\
    List.length rows' = Nat.max (List.length rows) (S ri) /\
    Permutation (flat_map r_cells rows') (p :: zs ++ flat_map r_cells rows) /\
    (forall i, sty_at rows' i = sty_at rows i).
Proof.
  intros ic c ri rows h h' rows' Hc Hri E. unfold row_step in E.
  set (rows1 := if (List.length rows <=? ri) then rows ++ [empty_row] else rows).
  assert (E1 : (if (List.length rows <=? ri)%nat then (rows ++ [empty_row], List.length rows) else (rows, ri)) = (rows1, ri)).
  { unfold rows1. destruct (Nat.leb_spec (List.length rows) ri); [|reflexivity]. replace ri with (List.length rows) by lia. reflexivity. }
  rewrite E1 in E. clear E1.
  assert (L1 : List.length rows1 = Nat.max (List.length rows) (S ri)).
  { unfold rows1. destruct (Nat.leb_spec (List.length rows) ri); [rewrite app_length; simpl; lia|lia]. }
  assert (C1 : forall i, cells rows1 i = cells rows i).
  { intro i. unfold rows1. destruct (Nat.leb_spec (List.length rows) ri); [|reflexivity]. unfold cells.
    destruct (Nat.lt_ge_cases i (List.length rows)); [rewrite nth_error_app1 by assumption; reflexivity|].
    rewrite nth_error_app2 by assumption. rewrite (proj2 (nth_error_None rows i)) by assumption.
    destruct (i - List.length rows) as [|[|k]]; reflexivity. }
  assert (S1 : forall i, sty_at rows1 i = sty_at rows i).
  { intro i. unfold rows1. destruct (Nat.leb_spec (List.length rows) ri); [|reflexivity]. unfold sty_at.
    destruct (Nat.lt_ge_cases i (List.length rows)); [rewrite nth_error_app1 by assumption; reflexivity|].
    rewrite nth_error_app2 by assumption. rewrite (proj2 (nth_error_None rows i)) by assumption.
    destruct (i - List.length rows) as [|[|k]]; reflexivity. }
  assert (F1 : flat_map r_cells rows1 = flat_map r_cells rows).
  { unfold rows1. destruct (_ <=? _); [|reflexivity]. rewrite flat_map_app. simpl. apply app_nil_r. }
  clearbody rows1.
  destruct (nth_error rows1 ri) as [row|] eqn:En; [|apply nth_error_None in En; lia].
  assert (Hn : nth ri rows1 empty_row = row) by (apply nth_error_nth; exact En).
  rewrite Hn in E. assert (Hr : r_cells row = cells rows ri) by (rewrite <- C1; symmetry; apply cells_nth; exact En).
  rewrite Hr in E. unfold pad_cells in E.
  destruct (zero_cells (ic - List.length (cells rows ri)) h) as [h1 zs] eqn:Ez.
  destruct (zero_cells_spec _ _ _ _ Ez) as (Z1 & Z2 & Z3 & Z4).
  rewrite alloc_eq in E. cbv beta iota zeta in E. injection E as <- <-.
  assert (Lz : List.length zs = ic - List.length (cells rows ri)) by (rewrite Z2; apply seq_length).
  exists zs, (h_next h1). rewrite next_update, next_alloc.
  split; [exact Z2|]. split; [exact (eq_trans Z1 (f_equal (Nat.add (h_next h)) (eq_sym Lz)))|]. split; [reflexivity|].
  assert (Hz : forall z, In z zs -> h_next h <= z < h_next h1).
  { intros z Hz. rewrite Z2 in Hz. apply in_seq in Hz. lia. }
  split.
  { intros z H. specialize (Hz z H). rewrite deref_update_ne by lia. rewrite deref_alloc_ne by lia. apply Z4. exact H. }
  split; [rewrite deref_update_ne by lia; apply deref_alloc_eq|].
  split; [rewrite deref_update_eq, deref_alloc_ne by lia; rewrite Z3 by exact Hc; reflexivity|].
  split; [intros c' H1 H2; rewrite deref_update_ne by exact H2; rewrite deref_alloc_ne by lia; apply Z3; exact H1|].
  split; [rewrite (cells_nth _ _ _ (nth_error_replace_eq _ ri _ rows1 ltac:(lia))); reflexivity|].
  split; [intros i Hi; unfold cells at 1; rewrite nth_error_replace_ne by exact Hi; apply C1|].
  split; [rewrite replace_nth_length; exact L1|].
  split.
  { rewrite (flat_replace (h_next h1 :: zs) _ _ _ _ En).
    - rewrite F1. reflexivity.
    - cbn [r_cells with_cells]. rewrite Hr. transitivity (h_next h1 :: firstn ic (cells rows ri ++ zs) ++ skipn ic (cells rows ri ++ zs)).
      + symmetry. apply Permutation_middle.
      + rewrite firstn_skipn. simpl. constructor. apply Permutation_app_comm. }
  intros i. rewrite <- S1. unfold sty_at. destruct (Nat.eq_dec i ri) as [->|Hi].
  - rewrite nth_error_replace_eq by lia. rewrite En. reflexivity.
  - rewrite nth_error_replace_ne by exact Hi. reflexivity.
Qed.
End Heap.
