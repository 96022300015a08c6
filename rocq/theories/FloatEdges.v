(** Heights of rows and edges of cells in binary64 (C40, C42, C93). *)
From Coq Require Import ZArith Reals Lia Lra Psatz Floats.SpecFloat.
From Flocq Require Import Core.Core.
From Verif Require Import GoStr Num Style Class Instr Engine Layout Grid Table Lines Proc EngineFacts ProcView TableView TableSpec DrawSpec TableFacts SpanFacts NormFacts WidthFacts HeightFacts TableMain TableThms SizeThms AreaThms FloatSpec FloatBase FloatRel FloatTable FloatLines.
From Coq Require Import Rdefinitions.
Local Open Scope R_scope.

Lemma max_float : forall (f : cid -> NumF64) l (a : NumF64), (forall c, In c l -> fin (f c)) -> fin a ->
  let r := fold_left (fun m c => if ltb m (f c) then f c else m) l a in
  fin r /\ fval a <= fval r /\ (forall c, In c l -> fval (f c) <= fval r) /\ (r = a \/ exists c, In c l /\ r = f c).
Proof.
  intros f. induction l as [|c l IH]; intros a Hl Fa r; subst r; cbn [fold_left].
  - split; [exact Fa|]. split; [lra|]. split; [intros ? []|left; reflexivity].
  - assert (Fc := Hl c (or_introl eq_refl)). assert (Hl' : forall c, In c l -> fin (f c)) by (intros x Hx; apply Hl; right; exact Hx). rewrite (ltb_ok _ _ Fa Fc).
    destruct (Rlt_bool_spec (fval a) (fval (f c))) as [E|E].
    + destruct (IH (f c) Hl' Fc) as (Z & A & B & C). split; [exact Z|]. split; [lra|]. split; [intros c' [<-|H']; [exact A|exact (B c' H')]|].
      right. destruct C as [C|(c' & C1 & C2)]; [exists c; split; [left; reflexivity|exact C]|exists c'; split; [right; exact C1|exact C2]].
    + destruct (IH a Hl' Fa) as (Z & A & B & C). split; [exact Z|]. split; [exact A|]. split; [intros c' [<-|H']; [lra|exact (B c' H')]|].
      destruct C as [C|(c' & C1 & C2)]; [left; exact C|right; exists c'; split; [right; exact C1|exact C2]].
Qed.
Lemma tallest_float : forall (h : heap NumF64) (rows : list (trow NumF64)) i, (forall c, In c (cells rows i) -> fin (snd (cell_dim h c))) ->
  (forall c, In c (cells rows i) -> fval (snd (cell_dim h c)) <= fval (tallest h rows i)) /\ 0 <= fval (tallest h rows i) /\
  (tallest h rows i = (zero : NumF64) \/ exists c, In c (cells rows i) /\ tallest h rows i = snd (cell_dim h c)).
Proof.
  intros h rows i Hf. destruct zero_ok as [Z1 Z2]. destruct (max_float (fun c => snd (cell_dim h c)) (cells rows i) zero Hf Z1) as (_ & A & B & C). rewrite Z2 in A. split; [exact B|]. split; [exact A|exact C].
Qed.

Lemma sum_app_R : forall l y l', sumR (l ++ y :: l') = sumR l + (y + sumR l').
Proof. unfold sumR. induction l as [|x l IH]; intros y l'; cbn [app fold_right]; [ring|rewrite IH; ring]. Qed.

Section Heights.
Context (env : Env NumF64) {eng : Engine NumF64} (st : Styled NumF64) (xrows : list (xrow NumF64)) (s s' : PS NumF64 eng) (h : heap NumF64) (t : table NumF64).
Hypothesis HT : transformTable env st xrows s = (Some (h, t), s').
Lemma row_heights_float : forall row, In row (t_rows t) -> (forall c, In c (r_cells row) -> fin (c_minHeight (deref h c))) ->
  (forall c, In c (r_cells row) -> c_height (deref h c) = r_height row /\ fval (c_minHeight (deref h c)) <= fval (r_height row)) /\
  0 <= fval (r_height row) /\
  (r_height row = (zero : NumF64) \/ exists c, In c (r_cells row) /\ r_height row = c_minHeight (deref h c)).
Proof.
  intros row Hr Hf. destruct (transform_spec env st xrows s _ _ HT) as (h1 & t1 & h0 & rows0 & E & _ & Src & Sp & _ & Hh & _). injection E as <- <-.
  destruct (Hh row Hr) as [H1 H2]. destruct zero_ok as [Z1 Z2]. destruct (max_float (fun c => c_minHeight (deref h c)) (r_cells row) zero Hf Z1) as (_ & A & B & C).
  unfold row_min_height in H1. cbv zeta in H1. rewrite <- H1 in *. rewrite Z2 in A. split; [|split; [exact A|exact C]]. intros c Hc. split; [exact (H2 c Hc)|exact (B c Hc)].
Qed.
Lemma right_edge_float : forall i j c (x0 : NumF64), cell_at (t_rows t) i j = Some c -> authored h c = true ->
  unreached xrows i \/ span (c_colSpan (deref h c)) = 1%nat ->
  (forall c, In c (cells (t_rows t) i) -> moderate (c_width (deref h c)) /\ 0 <= fval (c_width (deref h c))) -> moderate x0 -> 0 <= fval x0 ->
  let n := (j + span (c_colSpan (deref h c)))%nat in (Z.of_nat n < 2 ^ 20)%Z ->
  let right := fval x0 + sumR (map (fun c => fval (c_width (deref h c))) (firstn n (cells (t_rows t) i))) in
  let eps := INR (n + 1) * / 2 ^ 50 * right in
  Rabs (fval (left_edge h x0 (cells (t_rows t) i) j) + fval (fst (cell_dim h c)) - right) <= eps /\
  Rabs (fval (left_edge h x0 (cells (t_rows t) i) n) - right) <= eps.
Proof.
  intros i j c x0 Hc Ha Hu Hw Hx Px n Hn right eps. rewrite (drawn_width env st xrows s s' h t HT i j c Hc Ha Hu). unfold left_edge. assert (U := u_small).
  set (k := span (c_colSpan (deref h c))) in *. assert (Hk : (1 <= k)%nat) by (subst k; unfold span; lia).
  set (row := cells (t_rows t) i) in *.
  assert (E : firstn n row = (firstn j row ++ c :: firstn (k - 1) (skipn (j + 1) row))%list).
  { unfold cell_at in Hc. subst n. fold row in Hc. revert Hc. generalize row. clear - Hk. induction j as [|j IH]; intros [|a l] Hc; try discriminate.
    - injection Hc as ->. cbn [Nat.add firstn app skipn]. destruct k; [lia|]. cbn [firstn]. rewrite Nat.sub_succ, Nat.sub_0_r. reflexivity.
    - cbn [Nat.add firstn app skipn]. f_equal. exact (IH l Hc). }
  set (w := fun c => c_width (deref h c)) in *. change (fun x c => add x (c_width (deref h c))) with (fun x c => add x (w c)). change (fun x p => add x (c_width (deref h p))) with (fun x c => add x (w c)).
  assert (FM : forall l (a : NumF64), fold_left (fun x c => add x (w c)) l a = fold_left add (map w l) a) by (induction l as [|y l IH]; intros a; [reflexivity|cbn [map fold_left]; apply IH]). rewrite !FM.
  assert (Sub : forall l, incl l row -> forall r, In r (map w l) -> asked r) by (intros l Hl r Hr; apply in_map_iff in Hr as (p & <- & Hp); exact (Hw p (Hl p Hp))).
  assert (I0 : incl (firstn n row) row) by (intros y Hy; rewrite <- (firstn_skipn n row); apply in_or_app; left; exact Hy).
  assert (I1 : incl (firstn j row) row) by (intros y Hy; apply I0; rewrite E; apply in_or_app; left; exact Hy).
  assert (I2 : incl (c :: firstn (k - 1) (skipn (j + 1) row)) row) by (intros y Hy; apply I0; rewrite E; apply in_or_app; right; exact Hy).
  set (rest := firstn (k - 1) (skipn (j + 1) row)) in *.
  assert (Bx := proj2 Hx). rewrite (Rabs_pos_eq _ Px) in Bx.
  assert (L0 : (List.length (firstn n row) <= n)%nat) by apply firstn_le_length. assert (L1 : (List.length (firstn j row) <= j)%nat) by apply firstn_le_length. assert (L2 : (List.length rest <= k - 1)%nat) by apply firstn_le_length.
  assert (S0 : Rabs (fval x0 - fval x0) <= 2 * INR 1 * u * fval x0) by (rewrite Rminus_diag_eq by reflexivity; rewrite Rabs_R0; cbn [INR]; nra).
  destruct (sum_float (map w (firstn j row)) x0 (fval x0) 1 (Sub _ I1) (proj1 Hx) Px S0) as [_ A]; [rewrite map_length; lia|cbn [INR]; lra|].
  destruct (sum_float (map w (firstn n row)) x0 (fval x0) 1 (Sub _ I0) (proj1 Hx) Px S0) as [_ B]; [rewrite map_length; lia|cbn [INR]; lra|].
  destruct (Hw c (I2 c (or_introl eq_refl))) as [[Wc Bc] Pc]. rewrite (Rabs_pos_eq _ Pc) in Bc. fold (w c) in Wc, Bc, Pc.
  destruct (sum_float (map w rest) (w c) (fval (w c)) 1) as [_ D]; [intros r Hr; apply (Sub _ I2); right; exact Hr|exact Wc|exact Pc|rewrite Rminus_diag_eq by reflexivity; rewrite Rabs_R0; cbn [INR]; nra|rewrite map_length; lia|cbn [INR]; lra|].
  fold (w c). rewrite !map_map, !map_length in *. set (sj := sumR (map (fun x => fval (w x)) (firstn j row))) in *. set (sr := sumR (map (fun x => fval (w x)) rest)) in *.
  assert (Sum : sumR (map (fun x => fval (w x)) (firstn n row)) = sj + (fval (w c) + sr)).
  { rewrite E, map_app. cbn [map]. apply sum_app_R. }
  assert (Er : right = fval x0 + (sj + (fval (w c) + sr))) by (unfold right; change (fun c0 => fval (c_width (deref h c0))) with (fun x => fval (w x)); rewrite Sum; reflexivity). rewrite Sum in B. rewrite <- Er in B.
  assert (Psj : 0 <= sj) by (apply sum_nonneg; intros r Hr; apply in_map_iff in Hr as (p & <- & Hp); exact (proj2 (Hw p (I1 p Hp)))).
  assert (Psr : 0 <= sr) by (apply sum_nonneg; intros r Hr; apply in_map_iff in Hr as (p & <- & Hp); exact (proj2 (Hw p (I2 p (or_intror Hp))))).
  assert (E50 : / 2 ^ 50 = 8 * u) by (rewrite u_val; simpl; lra). unfold eps. rewrite E50.
  assert (Nn : INR (n + 1) = INR j + INR k + 1) by (subst n; rewrite !plus_INR; cbn [INR]; reflexivity).
  assert (Q1 : INR (1 + List.length (firstn j row)) <= INR (n + 1)) by (apply le_INR; lia).
  assert (Q2 : INR (1 + List.length rest) <= INR (n + 1)) by (apply le_INR; lia).
  assert (Q3 : INR (1 + List.length (firstn n row)) <= INR (n + 1)) by (apply le_INR; lia).
  set (N := INR (n + 1)) in *. assert (PN : 0 <= N) by apply pos_INR. assert (P1 := pos_INR (1 + List.length (firstn j row))). assert (P2 := pos_INR (1 + List.length rest)). assert (P3 := pos_INR (1 + List.length (firstn n row))).
  assert (Pr : 0 <= right) by lra.
  assert (M : forall q v, 0 <= q <= N -> 0 <= v -> 2 * q * u * v <= 2 * N * u * v) by (intros q v Hq Hv; apply Rmult_le_compat_r; [exact Hv|]; apply Rmult_le_compat_r; lra).
  assert (A' := M _ (fval x0 + sj) (conj P1 Q1) ltac:(lra)). assert (D' := M _ (fval (w c) + sr) (conj P2 Q2) ltac:(lra)). assert (B' := M _ right (conj P3 Q3) Pr).
  assert (Z : 0 <= N * u * right) by (apply Rmult_le_pos; [apply Rmult_le_pos; lra|exact Pr]).
  split.
  - set (a := fval (fold_left add (map w (firstn j row)) x0)) in *. set (d := fval (fold_left add (map w rest) (w c))) in *.
    replace (a + d - right) with ((a - (fval x0 + sj)) + (d - (fval (w c) + sr))) by (rewrite Er; ring). eapply Rle_trans; [apply Rabs_triang|].
    assert (2 * N * u * (fval x0 + sj) + 2 * N * u * (fval (w c) + sr) = 2 * (N * u * right)) by (rewrite Er; ring). lra.
  - lra.
Qed.
End Heights.
