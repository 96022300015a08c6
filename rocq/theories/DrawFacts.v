(** Drawing a table follows a schedule. *)
From Coq Require Import Lia.
From Verif Require Import GoStr Num Style Class Instr Engine Layout Grid Table Lines Proc EngineFacts TableView TableFacts DrawSpec.
Local Open Scope nat_scope.

Section Monad.
Context {F : Num} {eng : Engine F}.
Lemma bind_ok : forall A B (m : M eng A) (k : A -> M eng B) s b s', bind m k s = Ok b s' -> exists a s1, m s = Ok a s1 /\ k a s1 = Ok b s'.
Proof. intros A B m k s b s' H. unfold bind in H. destruct (m s) as [a s1| |]; try discriminate H. eauto. Qed.
Lemma bind_run : forall A B (m : M eng A) (k : A -> M eng B) s a s1, m s = Ok a s1 -> bind m k s = k a s1.
Proof. intros A B m k s a s1 H. unfold bind. rewrite H. reflexivity. Qed.
Lemma lift_ok : forall A (m : St eng A) s a s', lift m s = Ok a s' <-> m s = (a, s').
Proof. intros A m s a s'. unfold lift. destruct (m s). split; intro H; injection H as <- <-; reflexivity. Qed.
Lemma each_app : forall A (f : A -> M eng unit) l l' s, each f (l ++ l') s = (each f l ;; each f l') s.
Proof.
  intros A f. induction l as [|a l IH]; intros l' s; [reflexivity|]. cbn [app each]. unfold bind in *. destruct (f a s) as [? s1| |]; try reflexivity.
  exact (IH l' s1).
Qed.
Lemma each_app_ok : forall A (f : A -> M eng unit) l l' s s', each f (l ++ l') s = Ok tt s' <-> exists s1, each f l s = Ok tt s1 /\ each f l' s1 = Ok tt s'.
Proof.
  intros A f l l' s s'. rewrite each_app. split.
  - intros H. apply bind_ok in H as ([] & s1 & H1 & H2). eauto.
  - intros (s1 & H1 & H2). rewrite (bind_run _ _ _ _ _ _ _ H1). exact H2.
Qed.
Lemma each_one : forall A (f : A -> M eng unit) a s, each f [a] s = f a s.
Proof. intros. cbn. unfold bind. destruct (f a s) as [[] s1| |]; reflexivity. Qed.
End Monad.

Section Facts.
Context {F : Num} (env : Env F) {eng : Engine F} (callback : cb -> M eng unit).
Variables (h : heap F) (rows : list (trow F)).
Local Notation St := (PS F eng).

Lemma authored_test : forall c, (match c_spannedBy (deref h c) with Some _ => true | None => false end) || c_zero (deref h c) = negb (authored h c).
Proof. intros c. unfold authored. destruct (c_spannedBy (deref h c)); [reflexivity|]. destruct (c_zero (deref h c)); reflexivity. Qed.
Lemma firstn_app_len : forall A (l l' : list A), firstn (List.length l) (l ++ l') = l.
Proof. intros. rewrite firstn_app, firstn_all, Nat.sub_diag. cbn. apply app_nil_r. Qed.

Lemma render_cells_each : forall x0 y post pre s,
  render_cells env callback h post (left_edge h x0 (pre ++ post) (List.length pre)) y s =
  each (fun jc => let '(j, c) := jc in
          let x := left_edge h x0 (pre ++ post) j in
          let '(w, v) := cell_dim h c in
          renderCell env callback (mkPA x y (add x w) (add y v)) (deref h c))
       (filter (fun jc => authored h (snd jc)) (combine (seq (List.length pre) (List.length post)) post)) s.
Proof.
  intros x0 y. induction post as [|c post IH]; intros pre s; [reflexivity|].
  cbn [List.length seq combine filter snd render_cells]. rewrite authored_test.
  assert (E : add (left_edge h x0 (pre ++ c :: post) (List.length pre)) (c_width (deref h c)) = left_edge h x0 ((pre ++ [c]) ++ post) (List.length (pre ++ [c]))).
  { unfold left_edge. rewrite !firstn_app_len, fold_left_app. reflexivity. }
  rewrite E. assert (IH' := IH (pre ++ [c])). rewrite <- app_assoc in IH' |- *. cbn [app] in IH' |- *.
  rewrite app_length in IH' |- *. cbn [List.length] in IH' |- *. rewrite Nat.add_1_r in IH' |- *.
  destruct (authored h c); cbn [negb].
  - cbn [each]. unfold bind. destruct (cell_dim h c) as [w v]. destruct (renderCell _ _ _ _ s) as [? s1| |]; try reflexivity. apply IH'.
  - unfold bind, ret. apply IH'.
Qed.
Lemma renderRow_draw : forall x0 y row s, renderRow env callback h x0 y row s = (draw_row env callback h x0 y (r_cells row) ;; ret (add y (r_height row))) s.
Proof.
  intros x0 y row s. unfold renderRow, draw_row. assert (H := render_cells_each x0 y (r_cells row) [] s). cbn [List.length app left_edge firstn fold_left] in H.
  unfold bind. rewrite <- H. unfold left_edge. cbn [firstn fold_left]. destruct (render_cells _ _ _ _ _ _ s) as [? s1| |]; reflexivity.
Qed.
Lemma renderRow_ok : forall x0 y i row s y' s', nth_error rows i = Some row -> renderRow env callback h x0 y row s = Ok y' s' ->
  y' = add y (height rows i) /\ run_step env callback h rows x0 (Row i y) s = Ok tt s'.
Proof.
  intros x0 y i row s y' s' Hi H. rewrite renderRow_draw in H. apply bind_ok in H as ([] & s1 & H1 & H2). injection H2 as <- <-.
  unfold height, run_step. rewrite (cells_nth _ _ _ Hi), Hi. split; [reflexivity|exact H1].
Qed.

Variables (x0 bottom : F) (rh : Z).
Notation run_ := (run env callback h rows x0).
Notation next := (next_y rows).

Lemma next_app : forall y0 a i y b (s : St), next y0 (a ++ [Row i y]) s = add y (height rows i) /\
  next y0 ((a ++ [Row i y]) ++ b) s = next (add y (height rows i)) b s.
Proof.
  intros y0 a i y b s. unfold next_y. rewrite !rev_app_distr. cbn [rev app]. split; [reflexivity|].
  destruct (rev b) as [|[|k yk] r]; reflexivity.
Qed.

(** The suffix form of D_y. *)
Definition ys_ok (y0 : F) (l : list (step F)) (s : St) : Prop :=
  forall a i y b s1, l = a ++ Row i y :: b -> run_ a s = Ok tt s1 -> y = next y0 a s1.
Lemma ys_app : forall y0 l i y l' (s s1 : St), run_ (l ++ [Row i y]) s = Ok tt s1 -> ys_ok y0 (l ++ [Row i y]) s -> ys_ok (add y (height rows i)) l' s1 ->
  ys_ok y0 ((l ++ [Row i y]) ++ l') s.
Proof.
  intros y0 l i y l' s s1 Hr H1 H2 a k yk b s2 E Ha.
  set (p := l ++ [Row i y]) in *. apply app_eq_app in E as (m & [[E1 E2]|[E1 E2]]).
  - (* a is inside p *)
    destruct m as [|st m].
    + rewrite app_nil_r in E1. rewrite <- E1 in Ha. rewrite Hr in Ha. injection Ha as <-. 
      assert (G := H2 [] k yk b s1). cbn in G. rewrite <- E1. unfold p. rewrite (proj1 (next_app y0 l i y [] s1)). apply G; [symmetry; exact E2|reflexivity].
    + injection E2 as <- _. exact (H1 a k yk m s2 E1 Ha).
  - subst a l'. apply each_app_ok in Ha as (s3 & Ha1 & Ha2). unfold run in Hr. rewrite Hr in Ha1. injection Ha1 as <-.
    unfold p. rewrite (proj2 (next_app y0 l i y m s2)). exact (H2 m k yk b s2 eq_refl Ha2).
Qed.
Lemma ys_nil : forall y0 s, ys_ok y0 [] s.
Proof. intros y0 s a i y b s1 E. destruct a; discriminate E. Qed.
Lemma ys_one : forall i y s, ys_ok y [Row i y] s.
Proof. intros i y s a k yk b s1 E _. destruct a as [|st a]; [injection E as <- <- <-; reflexivity|]. injection E as _ E. destruct a; discriminate E. Qed.

(** Rows one after another from [y]. *)
Lemma repeat_header_ok : forall n i y (s : St) y' s', repeat_header env callback h rows x0 n i y s = Ok y' s' ->
  exists hs, Forall2 is_row (seq i (Nat.min n (List.length rows - i))) hs /\ run_ hs s = Ok tt s' /\ ys_ok y hs s /\ y' = next y hs s'.
Proof.
  induction n as [|n IH]; intros i y s y' s' H; cbn [repeat_header] in H.
  - injection H as <- <-. exists []. split; [constructor|]. split; [reflexivity|]. split; [apply ys_nil|reflexivity].
  - apply bind_ok in H as (y1 & s1 & H1 & H2). destruct (nth_error rows i) as [row|] eqn:Ei.
    + destruct (renderRow_ok x0 y i row s y1 s1 Ei H1) as [-> R]. destruct (IH (S i) _ s1 y' s' H2) as (hs & A & B & C & D).
      assert (Hlt : i < List.length rows) by (apply nth_error_Some; congruence).
      exists (Row i y :: hs). split.
      * replace (Nat.min (S n) (List.length rows - i)) with (S (Nat.min n (List.length rows - S i))) by lia. constructor; [exists y; reflexivity|exact A].
      * assert (R1 : run_ ([] ++ [Row i y]) s = Ok tt s1) by (unfold run; cbn [app]; rewrite each_one; exact R).
        split; [unfold run; cbn [each]; rewrite (bind_run _ _ _ _ _ _ _ R); exact B|]. split.
        -- exact (ys_app y [] i y hs s s1 R1 (ys_one i y s) C).
        -- rewrite D. symmetry. exact (proj2 (next_app y [] i y hs s')).
    + apply nth_error_None in Ei. injection H1 as <- <-.
      assert (G : forall n i s y' s', List.length rows <= i -> repeat_header env callback h rows x0 n i y s = Ok y' s' -> y' = y /\ s' = s).
      { clear. induction n as [|n IH]; intros i s y' s' Hi H; cbn [repeat_header] in H; [injection H as <- <-; auto|].
        rewrite (proj2 (nth_error_None rows i) Hi) in H. unfold bind, ret in H. exact (IH (S i) s y' s' (Nat.le_trans _ _ _ Hi (Nat.le_succ_diag_r i)) H). }
      destruct (G n (S i) s y' s' (Nat.le_trans _ _ _ Ei (Nat.le_succ_diag_r i)) H2) as [-> ->].
      exists []. replace (List.length rows - i) with 0 by lia. rewrite Nat.min_0_r. split; [constructor|]. split; [reflexivity|]. split; [apply ys_nil|reflexivity].
Qed.
Lemma maxCellHeight_tallest : forall i row, nth_error rows i = Some row -> maxCellHeight h row = tallest h rows i.
Proof. intros i row Hi. unfold maxCellHeight, tallest. rewrite (cells_nth _ _ _ Hi). reflexivity. Qed.

(** One row with what comes before it. *)
Definition block_shape (i : nat) (b : list (step F)) : Prop := exists y,
  b = [Row i y] \/ exists hs, b = Break :: hs ++ [Row i y] /\ Forall2 is_row (headers rows rh i) hs.

Lemma no_break_row : forall hs ns, Forall2 is_row ns hs -> ~ In (@Break F) hs.
Proof. intros hs ns H. induction H as [|n st ns hs [y ->] H IH]; [intros []|]. intros [G|G]; [discriminate G|exact (IH G)]. Qed.

Lemma render_rows_ok : forall rest i y (s : St) y' s', (forall k, nth_error rest k = nth_error rows (i + k)) ->
  render_rows env callback h rows rh x0 bottom i rest y s = Ok y' s' ->
  exists blocks, List.length blocks = List.length rest /\ run_ (List.concat blocks) s = Ok tt s' /\
    (forall k b, nth_error blocks k = Some b -> block_shape (i + k) b) /\
    (forall k b s1, nth_error blocks k = Some b -> run_ (List.concat (firstn k blocks)) s = Ok tt s1 ->
       (In Break b <-> ps_prevent s1 = false /\ ltb bottom (add (next y (List.concat (firstn k blocks)) s1) (tallest h rows (i + k))) = true)) /\
    ys_ok y (List.concat blocks) s /\ y' = next y (List.concat blocks) s'.
Proof.
  induction rest as [|row rest IH]; intros i y s y' s' Hrest H; cbn [render_rows] in H.
  - injection H as <- <-. exists []. split; [reflexivity|]. split; [reflexivity|]. split; [intros [|k] b G; discriminate G|].
    split; [intros [|k] b s1 G; discriminate G|]. split; [apply ys_nil|reflexivity].
  - assert (Ei : nth_error rows i = Some row) by (assert (G := Hrest 0); cbn in G; rewrite Nat.add_0_r in G; symmetry; exact G).
    assert (Hrest' : forall k, nth_error rest k = nth_error rows (S i + k)).
    { intro k. assert (G := Hrest (S k)). cbn [nth_error] in G. rewrite G. f_equal. lia. }
    apply bind_ok in H as (prevent & s0 & H1 & H). apply lift_ok in H1. injection H1 as <- <-.
    apply bind_ok in H as (y1 & s1 & H1 & H). apply bind_ok in H as (y2 & s2 & H2 & H3).
    destruct (renderRow_ok x0 y1 i row s1 y2 s2 Ei H2) as [-> R].
    destruct (IH (S i) _ s2 y' s' Hrest' H3) as (blocks & B1 & B2 & B3 & B4 & B5 & B6).
    rewrite (maxCellHeight_tallest i row Ei) in H1.
    (* the steps before the row *)
    assert (P : exists p, (p = [] \/ exists hs, p = Break :: hs /\ Forall2 is_row (headers rows rh i) hs) /\
        run_ p s = Ok tt s1 /\ ys_ok y p s /\ y1 = next y p s1 /\
        (In Break p <-> ps_prevent s = false /\ ltb bottom (add y (tallest h rows i)) = true)).
    { destruct (negb (ps_prevent s) && ltb bottom (add y (tallest h rows i))) eqn:Eb.
      - apply andb_prop in Eb as [Eb1 Eb2]. apply negb_true_iff in Eb1.
        apply bind_ok in H1 as ([] & sb & Hb & H1). apply bind_ok in H1 as (xy & sq & Hq & H1). apply lift_ok in Hq. injection Hq as <- <-.
        assert (Hd : exists hs, Forall2 is_row (headers rows rh i) hs /\ run_ hs sb = Ok tt s1 /\ ys_ok (snd (getXY (ps_eng sb))) hs sb /\ y1 = next (snd (getXY (ps_eng sb))) hs s1).
        { destruct ((0 <? i) && (0 <? rh)%Z) eqn:Eh.
          - apply andb_prop in Eh as [Eh1 Eh2]. apply repeat_header_ok in H1. rewrite Nat.sub_0_r in H1. unfold headers. rewrite Eh1. exact H1.
          - injection H1 as <- <-. exists []. split; [|split; [reflexivity|split; [apply ys_nil|reflexivity]]].
            unfold headers. destruct (0 <? i); [|constructor]. cbn in Eh. apply Z.ltb_ge in Eh. replace (Z.to_nat rh) with 0 by lia. constructor. }
        destruct Hd as (hs & D1 & D2 & D3 & D4). exists (Break :: hs). split; [right; exists hs; auto|].
        assert (R1 : run_ (Break :: hs) s = Ok tt s1) by (unfold run; cbn [each]; rewrite (bind_run _ _ _ _ _ _ _ Hb); exact D2).
        split; [exact R1|].
        assert (Nx : forall a (sa : St), next y (Break :: a) sa = match a with [] => snd (getXY (ps_eng sa)) | _ => next (snd (getXY (ps_eng sb))) a sa end).
        { intros a sa. destruct a as [|st a]; [reflexivity|]. unfold next_y. cbn [rev]. assert (N : rev a ++ [st] <> []) by (destruct (rev a); discriminate).
          destruct (rev a ++ [st]) as [|u v]; [contradiction|]. cbn [app]. destruct u; reflexivity. }
        split; [|split].
        + intros a k yk b sa E Ha. destruct a as [|st a]; [discriminate E|]. injection E as <- E.
          unfold run in Ha. cbn [each] in Ha. apply bind_ok in Ha as ([] & sb' & Ha1 & Ha2). cbn [run_step] in Ha1. rewrite Hb in Ha1. injection Ha1 as <-.
          assert (G := D3 a k yk b sa E Ha2). rewrite Nx. destruct a as [|st' a']; [|exact G]. cbn in Ha2. injection Ha2 as <-. exact G.
        + rewrite Nx. destruct hs as [|st hs']; [|exact D4]. cbn in D2. injection D2 as <-. exact D4.
        + split; [intros _; auto|intros _; left; reflexivity].
      - injection H1 as <- <-. exists []. split; [left; reflexivity|]. split; [reflexivity|]. split; [apply ys_nil|]. split; [reflexivity|].
        split; [intros []|]. intros [G1 G2]. rewrite G1, G2 in Eb. discriminate Eb. }
    destruct P as (p & P1 & P2 & P3 & P4 & P5).
    exists ((p ++ [Row i y1]) :: blocks). 
    assert (Rp : run_ (p ++ [Row i y1]) s = Ok tt s2).
    { apply each_app_ok. exists s1. split; [exact P2|]. rewrite each_one. exact R. }
    assert (Yp : ys_ok y (p ++ [Row i y1]) s).
    { intros a k yk b sa E Ha. apply app_eq_app in E as (m & [[E1 E2]|[E1 E2]]).
      - destruct m as [|st m].
        + rewrite app_nil_r in E1. subst a. injection E2 as -> -> _. unfold run in *. rewrite P2 in Ha. injection Ha as <-. exact P4.
        + injection E2 as <- _. exact (P3 a k yk m sa E1 Ha).
      - destruct m as [|st m].
        + rewrite app_nil_r in E1. subst a. injection E2 as <- <- _. unfold run in *. rewrite P2 in Ha. injection Ha as <-. exact P4.
        + injection E2 as _ E2. destruct m; discriminate E2. }
    split; [cbn; rewrite B1; reflexivity|]. cbn [List.concat]. split; [apply each_app_ok; exists s2; split; [exact Rp|exact B2]|]. split; [|split; [|split]].
    + intros [|k] b Hk; cbn [nth_error] in Hk.
      * injection Hk as <-. rewrite Nat.add_0_r. exists y1. destruct P1 as [->|(hs & -> & P1)]; [left; reflexivity|right]. exists hs. split; [reflexivity|exact P1].
      * replace (i + S k) with (S i + k) by lia. exact (B3 k b Hk).
    + intros [|k] b sa Hk Ha; cbn [nth_error firstn List.concat] in *.
      * injection Hk as <-. cbn in Ha. injection Ha as <-. rewrite Nat.add_0_r. rewrite in_app_iff. cbn [In]. unfold next_y. cbn [rev]. 
        split; [intros [G|[G|[]]]; [apply P5; exact G|discriminate G]|intros G; left; apply P5; exact G].
      * apply each_app_ok in Ha as (sb & Ha1 & Ha2). unfold run in Rp. rewrite Rp in Ha1. injection Ha1 as <-.
        replace (i + S k) with (S i + k) by lia. rewrite (proj2 (next_app y p i y1 _ sa)). exact (B4 k b sa Hk Ha2).
    + exact (ys_app y p i y1 _ s s2 Rp Yp B5).
    + rewrite (proj2 (next_app y p i y1 _ s')). exact B6.
Qed.

Lemma head_height_eq : head_height h rows rh = fold_left (fun v i => add v (tallest h rows i)) (seq 0 (Nat.min (Z.to_nat (rh + 1)) (List.length rows))) zero.
Proof.
  unfold head_height. set (n := Z.to_nat (rh + 1)). 
  assert (G : forall n a v, fold_left (fun v i => match nth_error rows i with Some row => add v (maxCellHeight h row) | None => v end) (seq a n) v
     = fold_left (fun v i => add v (tallest h rows i)) (seq a (Nat.min n (List.length rows - a))) v).
  { clear n. induction n as [|n IH]; intros a v; [reflexivity|]. cbn [seq fold_left].
    destruct (nth_error rows a) as [row|] eqn:Ea.
    - assert (a < List.length rows) by (apply nth_error_Some; congruence). replace (Nat.min (S n) (List.length rows - a)) with (S (Nat.min n (List.length rows - S a))) by lia.
      cbn [seq fold_left]. rewrite IH, (maxCellHeight_tallest a row Ea). reflexivity.
    - apply nth_error_None in Ea. rewrite IH. replace (List.length rows - a) with 0 by lia. replace (List.length rows - S a) with 0 by lia. rewrite !Nat.min_0_r. reflexivity. }
  rewrite G, Nat.sub_0_r. reflexivity.
Qed.
Lemma rows_schedule : forall y0 (s s1 s' : St) y' before,
  before = (if negb (ps_prevent s) && ltb bottom (add y0 (fold_left (fun v i => add v (tallest h rows i)) (seq 0 (Nat.min (Z.to_nat (rh + 1)) (List.length rows))) zero)) then [Break] else []) ->
  run_ before s = Ok tt s1 -> render_rows env callback h rows rh x0 bottom 0 rows (next y0 before s1) s1 = Ok y' s' ->
  exists blocks, schedule env callback h rows rh x0 y0 bottom before blocks s s' y'.
Proof.
  intros y0 s s1 s' y' before Hb Rb H. apply render_rows_ok in H; [|reflexivity]. destruct H as (blocks & B1 & B2 & B3 & B4 & B5 & B6).
  assert (Hcases : before = [] \/ before = [Break]) by (rewrite Hb; destruct (_ && _); auto).
  assert (Nx : forall a (sa : St), run_ (before ++ a) s = Ok tt sa -> run_ a s1 = Ok tt sa /\ next y0 (before ++ a) sa = next (next y0 before s1) a sa).
  { intros a sa Ha. apply each_app_ok in Ha as (sb & Ha1 & Ha2). unfold run in Rb. rewrite Rb in Ha1. injection Ha1 as <-. split; [exact Ha2|].
    destruct Hcases as [->| ->]; [reflexivity|]. unfold next_y. cbn [app rev]. destruct (rev a) as [|[|k yk] r] eqn:Er; cbn; try reflexivity.
    assert (a = []) by (rewrite <- (rev_involutive a), Er; reflexivity). subst a. cbn in Ha2. injection Ha2 as <-. reflexivity. }
  exists blocks. constructor.
  - apply each_app_ok. exists s1. split; [exact Rb|exact B2].
  - exact Hb.
  - exact B1.
  - intros i b Hi. exact (B3 i b Hi).
  - intros i b sa Hi Ha. destruct (Nx _ _ Ha) as [Ha' ->]. exact (B4 i b sa Hi Ha').
  - intros a i y b sa E Ha. destruct Hcases as [->| ->].
    + cbn [app] in E. cbn in Rb. injection Rb as <-. exact (B5 a i y b sa E Ha).
    + destruct a as [|st a]; [discriminate E|]. injection E as <- E. destruct (Nx a sa Ha) as [Ha' G]. cbn [app] in G. rewrite G. exact (B5 a i y b sa E Ha').
  - rewrite B6. destruct (Nx (List.concat blocks) s') as [_ ->]; [apply each_app_ok; exists s1; split; [exact Rb|exact B2]|reflexivity].
Qed.
End Facts.

Section Table.
Context {F : Num} (env : Env F) {eng : Engine F} (callback : cb -> M eng unit).
Lemma renderTable_schedule : forall st rh xrows (s s' : PS F eng), renderTable env callback (XTable st rh xrows) s = Ok tt s' ->
  exists h t s1, transformTable env st xrows s = (Some (h, t), s1) /\
    ((t_columnCount t = 0 /\ s' = snd (resetStyles s1)) \/
     (t_columnCount t <> 0 /\ exists before blocks s2 y',
        let '(_, _, _, bottom) := printableArea (ps_eng s1) in
        schedule env callback h (t_rows t) rh (fst (getXY (ps_eng s1))) (snd (getXY (ps_eng s1))) bottom before blocks s1 s2 y' /\
        s' = snd (resetStyles (snd (emit (SetY y') s2))))).
Proof.
  intros st rh xrows s s' H. unfold renderTable in H. apply bind_ok in H as (r & s1 & H1 & H). apply lift_ok in H1.
  destruct r as [[h t]|]; [|discriminate H]. exists h, t, s1. split; [exact H1|].
  destruct (Nat.eqb_spec (t_columnCount t) 0) as [Hc|Hc].
  - left. split; [exact Hc|]. apply lift_ok in H. rewrite H. reflexivity.
  - right. split; [exact Hc|].
    apply bind_ok in H as (pg & sa & Ha & H). apply lift_ok in Ha.
    assert (Epg : sa = s1 /\ pa_y1 (pg_area pg) = let '(_, _, _, b) := printableArea (ps_eng s1) in b).
    { unfold page_now, sbind, query, sret in Ha. destruct (printableArea (ps_eng s1)) as [[[a b] c] d]. injection Ha as <- <-. split; reflexivity. }
    destruct Epg as [-> Epg]. apply bind_ok in H as ([x0 y] & sa & Ha' & H). apply lift_ok in Ha'. injection Ha' as Exy <-. 
    apply bind_ok in H as (prevent & sa & Ha' & H). apply lift_ok in Ha'. injection Ha' as <- <-.
    apply bind_ok in H as (y1 & s2 & H2 & H). apply bind_ok in H as (y2 & s3 & H3 & H). apply bind_ok in H as ([] & s4 & H4 & H).
    apply lift_ok in H4. apply lift_ok in H. rewrite head_height_eq in H2.
    destruct (printableArea (ps_eng s1)) as [[[a b] c] bottom]. rewrite Epg in *. rewrite Exy. cbn [fst snd].
    assert (P : exists before, before = (if negb (ps_prevent s1) && ltb bottom (add y (fold_left (fun v i => add v (tallest h (t_rows t) i)) (seq 0 (Nat.min (Z.to_nat (rh + 1)) (List.length (t_rows t)))) zero)) then [Break] else []) /\
       run env callback h (t_rows t) x0 before s1 = Ok tt s2 /\ y1 = next_y (t_rows t) y before s2).
    { eexists. split; [reflexivity|]. destruct (_ && _).
      - apply bind_ok in H2 as ([] & sb & Hb & H2). apply bind_ok in H2 as (xy & sq & Hq & H2). apply lift_ok in Hq. injection Hq as <- <-. injection H2 as <- <-.
        split; [unfold run; rewrite each_one; exact Hb|reflexivity].
      - injection H2 as <- <-. split; reflexivity. }
    destruct P as (before & P1 & P2 & ->). destruct (rows_schedule env callback h (t_rows t) x0 bottom rh y s1 s2 s3 y2 before P1 P2 H3) as (blocks & Sc).
    exists before, blocks, s3, y2. split; [exact Sc|]. rewrite H4. cbn [snd]. rewrite H. reflexivity.
Qed.
End Table.
