(** Consequences of the drawing schedule of a table. *)
From Coq Require Import Lia Permutation QArith.
From Verif Require Import GoStr Num Style Class Instr Engine Layout Grid Table Lines Proc EngineFacts ProcInv TableView TableThms DrawSpec DrawFacts ProcFrame.
Local Open Scope nat_scope.

Section Fit.
Context {F : Num} (env : Env F) {eng : Engine F} (depth : nat).
Hypothesis Hshuffle : forall l, Permutation (e_shuffle env l) l.
Local Notation callback := (callbacks env depth).

Lemma run_prevent : forall h rows x l (s s' : PS F eng), run env callback h rows x l s = Ok tt s' -> ps_prevent s = false -> ps_prevent s' = false.
Proof.
  intros h rows x l s s' H Hp. assert (G := run_frame env callback (callbacks_frame0 env Hshuffle depth) h rows x l s).
  rewrite H in G. exact (proj2 (proj1 G) Hp).
Qed.

Lemma nth_split_concat : forall A (bs : list (list A)) i b, nth_error bs i = Some b ->
  List.concat bs = List.concat (firstn i bs) ++ b ++ List.concat (skipn (S i) bs).
Proof.
  intros A. induction bs as [|b0 bs IH]; intros [|i] b H; try discriminate H; cbn in H.
  - injection H as ->. reflexivity.
  - cbn [List.concat firstn skipn]. rewrite (IH i b H), <- app_assoc. reflexivity.
Qed.
Lemma next_row : forall rows y0 (a : list (step F)) i y (s : PS F eng), next_y rows y0 (a ++ [Row i y]) s = add y (height rows i).
Proof. intros. unfold next_y. rewrite rev_app_distr. reflexivity. Qed.
Lemma next_break : forall rows y0 (a : list (step F)) (s : PS F eng), next_y rows y0 (a ++ [Break]) s = snd (getXY (ps_eng s)).
Proof. intros. unfold next_y. rewrite rev_app_distr. reflexivity. Qed.

Section One.
Variables (h : heap F) (rows : list (trow F)) (rh : Z) (x0 y0 bottom top : F) (before : list (step F)) (blocks : list (list (step F))) (s s' : PS F eng) (y' : F).
Hypothesis Sc : schedule env callback h rows rh x0 y0 bottom before blocks s s' y'.
Hypothesis Hprev : ps_prevent s = false.
Hypothesis Htop : forall s1 s2 : PS F eng, add_page callback s1 = Ok tt s2 -> snd (getXY (ps_eng s2)) = top.

Lemma headers_y : forall hs ns a b y1 (s1 : PS F eng), Forall2 is_row ns hs ->
  before ++ List.concat blocks = a ++ hs ++ b ->
  run env callback h rows x0 a s = Ok tt s1 -> next_y rows y0 a s1 = y1 ->
  forall s2, run env callback h rows x0 (a ++ hs) s = Ok tt s2 ->
  next_y rows y0 (a ++ hs) s2 = fold_left (fun v k => add v (height rows k)) ns y1.
Proof.
  induction hs as [|r hs IH]; intros ns a b y1 s1 Hn E R Hy s2 R2.
  - inversion Hn; subst ns. rewrite app_nil_r in *. cbn. congruence.
  - inversion Hn as [|k ? ns' ? [y Ey] Hn']; subst. cbn [fold_left].
    assert (Y := D_y _ _ _ _ _ _ _ _ _ _ _ _ _ Sc a k y (hs ++ b) s1 E R). subst y.
    assert (R3 := R2). unfold run in R3. change (a ++ Row k (next_y rows y0 a s1) :: hs) with (a ++ [Row k (next_y rows y0 a s1)] ++ hs) in R3, R2, E |- *.
    rewrite app_assoc in R3, R2 |- *. apply each_app_ok in R3 as (s3 & R3 & _).
    apply (IH ns' (a ++ [Row k (next_y rows y0 a s1)]) b _ s3 Hn').
    + rewrite <- app_assoc. exact E.
    + exact R3.
    + apply next_row.
    + exact R2.
Qed.

Lemma fits : forall i b p y, nth_error blocks i = Some b -> b = p ++ [Row i y] ->
  ltb bottom (add (fold_left (fun v k => add v (height rows k)) (headers rows rh i) top) (tallest h rows i)) = false ->
  ltb bottom (add y (tallest h rows i)) = false.
Proof.
  intros i b p y Hb Ep Hfit. assert (Rn := D_run _ _ _ _ _ _ _ _ _ _ _ _ _ Sc). assert (Sp := nth_split_concat _ blocks i b Hb).
  assert (E : before ++ List.concat blocks = ((before ++ List.concat (firstn i blocks)) ++ p) ++ Row i y :: List.concat (skipn (S i) blocks)).
  { rewrite Sp, Ep, <- !app_assoc. reflexivity. }
  unfold run in Rn. rewrite E in Rn. apply each_app_ok in Rn as (s2 & R2 & _). change (run env callback h rows x0 ((before ++ List.concat (firstn i blocks)) ++ p) s = Ok tt s2) in R2.
  assert (Y := D_y _ _ _ _ _ _ _ _ _ _ _ _ _ Sc _ i y _ s2 E R2).
  assert (R1 := R2). unfold run in R1. apply each_app_ok in R1 as (s1 & R1 & R1p). change (run env callback h rows x0 (before ++ List.concat (firstn i blocks)) s = Ok tt s1) in R1.
  assert (Hp1 := run_prevent _ _ _ _ _ _ R1 Hprev).
  assert (Br := D_break _ _ _ _ _ _ _ _ _ _ _ _ _ Sc i b s1 Hb R1).
  destruct (D_block _ _ _ _ _ _ _ _ _ _ _ _ _ Sc i b Hb) as (y2 & [Eb|(hs & Eb & Hh)]).
  - assert (p = []). { rewrite Eb in Ep. change [Row i y2] with ([] ++ [Row i y2]) in Ep. apply app_inj_tail in Ep. symmetry. apply Ep. }
    subst p. rewrite app_nil_r in *. assert (s2 = s1) by congruence. subst s2.
    destruct (ltb bottom (add y (tallest h rows i))) eqn:El; [|reflexivity]. exfalso.
    rewrite Y in El. assert (In Break b) as HB by (apply Br; split; assumption). rewrite Eb in HB. destruct HB as [HB|[]]. discriminate HB.
  - assert (p = Break :: hs). { rewrite Eb in Ep. change (Break :: hs ++ [Row i y2]) with ((Break :: hs) ++ [Row i y2]) in Ep. apply app_inj_tail in Ep. symmetry. apply Ep. }
    subst p. set (q := before ++ List.concat (firstn i blocks)) in *.
    assert (R3 := R2). change (q ++ Break :: hs) with (q ++ [Break] ++ hs) in R3. rewrite app_assoc in R3.
    assert (R4 := R3). unfold run in R4. apply each_app_ok in R4 as (s3 & R4 & _).
    assert (R5 := R4). apply each_app_ok in R5 as (s4 & R5 & R6). rewrite each_one in R6. cbn [run_step] in R6.
    assert (T := Htop _ _ R6).
    assert (G := headers_y hs (headers rows rh i) (q ++ [Break]) (Row i y :: List.concat (skipn (S i) blocks)) top s3 Hh).
    rewrite <- Hfit. f_equal. f_equal. rewrite Y. change (q ++ Break :: hs) with (q ++ [Break] ++ hs). rewrite app_assoc. apply G.
    + rewrite E, <- !app_assoc. reflexivity.
    + exact R4.
    + rewrite next_break. exact T.
    + exact R3.
Qed.
End One.

(** No page breaks are made while a table without boxes is drawn but those of the schedule. *)
Definition quietly (s s' : PS F eng) : Prop := exists evs, ps_trace s' = ps_trace s ++ evs /\ pages evs = 0.
Lemma quietly_refl : forall s, quietly s s.
Proof. intros s. exists []. rewrite app_nil_r. split; reflexivity. Qed.
Lemma pages_app : forall (a b : list (event F)), pages (a ++ b) = pages a + pages b.
Proof. intros a b. unfold pages. rewrite filter_app, app_length. reflexivity. Qed.
Lemma quietly_trans : forall a b c, quietly a b -> quietly b c -> quietly a c.
Proof. intros a b c (e1 & E1 & F1) (e2 & E2 & F2). exists (e1 ++ e2). rewrite E2, E1, app_assoc, pages_app, F1, F2. split; reflexivity. Qed.
Lemma quietly_emit : forall c s, quietly s (emitted c s).
Proof. intros c s. exists [Ev (Simple c) []]. rewrite emitted_trace. split; reflexivity. Qed.
Lemma quietly_sty : forall f (s : PS F eng), True -> quietly s (set_sty (with_font f (ps_sty s)) s).
Proof. intros f s _. exists []. split; [symmetry; apply app_nil_r|reflexivity]. Qed.
Lemma plain_cells : forall st xrows (s s1 : PS F eng) h t, transformTable env st xrows s = (Some (h, t), s1) -> boxless xrows ->
  forall i c, In c (cells (t_rows t) i) -> authored h c = true -> existsb is_box (c_iss (deref h c)) = false.
Proof.
  intros st xrows s s1 h t T Hb i c Hc Ha. assert (G := keeps_cells env st xrows s s1 h t T i).
  assert (K : In (content (deref h c)) (map xcontent (xcells xrows i))).
  { rewrite <- G. apply (in_map (fun c => content (deref h c))). apply filter_In. split; assumption. }
  apply in_map_iff in K as (x & E & Hx). specialize (Hb i x Hx). rewrite E in Hb. exact Hb.
Qed.
Lemma command_trace : forall c p (s s' : PS F eng), command callback c p s = Ok tt s' -> exists calls, ps_trace s' = ps_trace s ++ [Ev c calls].
Proof.
  intros c p s s' H. unfold command in H. destruct (run_calls callback (p (ps_eng s)) [] s) as [calls s1| |]; try discriminate H.
  injection H as <-. exists calls. reflexivity.
Qed.
Lemma cell_quiet : forall pa x s, existsb is_box (c_iss x) = false -> okres quietly True s (renderCell env callback pa x s).
Proof.
  intros pa x s H. apply (mok_cell_plain env callback quietly (fun _ => True) True); try exact I; try exact H.
  - apply quietly_refl.
  - apply quietly_trans.
  - intros; exact I.
  - intros c s0 _. apply quietly_emit.
  - intros f s0 _. exists []. split; [symmetry; apply app_nil_r|reflexivity].
  - intros t s0 _. assert (G := command_frame callback (callbacks_frame0 env Hshuffle depth) (WriteText t) (Engine.writeText t) s0 ltac:(discriminate)).
    unfold write_text. destruct (command callback (WriteText t) (Engine.writeText t) s0) as [[] s1| |] eqn:Ec; try exact G.
    destruct (command_trace _ _ _ _ Ec) as [calls E]. exists [Ev (WriteText t) calls]. split; [exact E|reflexivity].
Qed.
Lemma each_quiet : forall A (g : A -> M eng unit) l (s s' : PS F eng), (forall a s, In a l -> okres quietly True s (g a s)) ->
  each g l s = Ok tt s' -> quietly s s'.
Proof.
  intros A g. induction l as [|a l IH]; intros s s' Hl H; cbn [each] in H.
  - injection H as <-. apply quietly_refl.
  - apply bind_ok in H as ([] & s1 & H1 & H2). assert (G := Hl a s (or_introl eq_refl)). rewrite H1 in G.
    apply (quietly_trans _ _ _ G). apply (IH s1 s'); [|exact H2]. intros a' s0 Hc. apply (Hl a' s0). right. exact Hc.
Qed.
Lemma row_quiet : forall h x0 y row (s s' : PS F eng), (forall c, In c row -> authored h c = true -> existsb is_box (c_iss (deref h c)) = false) ->
  draw_row env callback h x0 y row s = Ok tt s' -> quietly s s'.
Proof.
  intros h x0 y row s s' Hr H. unfold draw_row in H. apply bind_ok in H as ([] & s1 & H1 & H2). apply lift_ok in H2. rewrite emit_eq in H2. injection H2 as <-.
  apply (quietly_trans _ s1); [|apply quietly_emit]. apply each_quiet in H1; [exact H1|].
  intros [j c] s0 Hi. apply filter_In in Hi as [Hi Ha]. apply in_combine_r in Hi. cbv zeta. destruct (cell_dim h c) as [w v].
  apply cell_quiet. exact (Hr c Hi Ha).
Qed.
Lemma run_pages : forall h rows x0 l (s s' : PS F eng),
  (forall i c, In c (cells rows i) -> authored h c = true -> existsb is_box (c_iss (deref h c)) = false) ->
  run env callback h rows x0 l s = Ok tt s' -> exists evs, ps_trace s' = ps_trace s ++ evs /\ pages evs = breaks l.
Proof.
  intros h rows x0 l s s' Hc. revert s. induction l as [|st l IH]; intros s H; unfold run in H; cbn [each] in H.
  - injection H as <-. apply quietly_refl.
  - apply bind_ok in H as ([] & s1 & H1 & H2). destruct (IH s1 H2) as (e2 & E2 & P2). destruct st as [|i y]; cbn [run_step] in H1.
    + destruct (command_trace _ _ _ _ H1) as [calls E]. exists (Ev AddPage calls :: e2). rewrite E2, E, <- app_assoc. split; [reflexivity|].
      unfold pages, breaks in *. cbn. rewrite P2. reflexivity.
    + apply row_quiet in H1 as (e1 & E1 & P1); [|apply Hc]. exists (e1 ++ e2). rewrite E2, E1, app_assoc, pages_app, P1. split; [reflexivity|exact P2].
Qed.

(** C43: the page breaks of a table without boxes are those of its schedule. *)
Lemma table_pages : forall st rh xrows (s s' : PS F eng), boxless xrows ->
  renderTable env callback (XTable st rh xrows) s = Ok tt s' ->
  exists h t s1 evs, transformTable env st xrows s = (Some (h, t), s1) /\ ps_trace s' = ps_trace s ++ evs /\
    ((t_columnCount t = 0 /\ pages evs = 0) \/
     (t_columnCount t <> 0 /\ exists before blocks s2 y',
        let '(_, _, _, bottom) := printableArea (ps_eng s1) in
        schedule env callback h (t_rows t) rh (fst (getXY (ps_eng s1))) (snd (getXY (ps_eng s1))) bottom before blocks s1 s2 y' /\
        pages evs = breaks (before ++ List.concat blocks))).
Proof.
  intros st rh xrows s s' Hb H. destruct (renderTable_schedule _ _ _ _ _ _ _ H) as (h & t & s1 & T & C).
  assert (Qt : quietly s s1).
  { assert (G := sok_transform env quietly (fun _ => True) quietly_refl quietly_trans (fun _ _ _ _ => I) (fun c s0 _ => quietly_emit c s0) quietly_sty st xrows s I).
    rewrite T in G. exact G. }
  assert (Reset : forall s0, quietly s0 (snd (resetStyles s0))).
  { intros s0. exact (sok_reset quietly (fun _ => True) quietly_refl quietly_trans (fun _ _ _ _ => I) (fun c s1 _ => quietly_emit c s1) s0 I). }
  destruct C as [[C0 ->]|(C0 & before & blocks & s2 & y' & C)].
  - destruct (quietly_trans _ _ _ Qt (Reset s1)) as (evs & E & P). exists h, t, s1, evs. auto.
  - destruct (printableArea (ps_eng s1)) as [[[a b] c] bottom] eqn:Ep. destruct C as [Sc ->].
    destruct (run_pages _ _ _ _ _ _ (plain_cells _ _ _ _ _ _ T Hb) (D_run _ _ _ _ _ _ _ _ _ _ _ _ _ Sc)) as (e2 & E2 & P2).
    destruct Qt as (e1 & E1 & P1). destruct (quietly_trans _ _ _ (quietly_emit (SetY y') s2) (Reset (emitted (SetY y') s2))) as (e3 & E3 & P3).
    exists h, t, s1, (e1 ++ e2 ++ e3). split; [exact T|]. split.
    + rewrite emit_eq. cbn [snd]. rewrite E3, E2, E1, !app_assoc. reflexivity.
    + right. split; [exact C0|]. exists before, blocks, s2, y'. rewrite Ep. split; [exact Sc|]. rewrite !pages_app. lia.
Qed.
End Fit.
