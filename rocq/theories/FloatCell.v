(** Vertical alignment of the text of cells in binary64 (C86). *)
From Coq Require Import ZArith Reals Lia Lra Psatz Floats.SpecFloat.
From Flocq Require Import Core.Core.
From Verif Require Import GoStr Num Style Class Instr Engine Layout Grid Table Lines Proc EngineFacts ProcView DrawSpec DrawFacts FloatSpec FloatBase FloatRel FloatTall.
From Verif Require Import LayoutSpec LayoutFacts LinesSpec LinesLink WriteSpec WriteFacts WriteThms ProcInv ProcFrame ProcSpec ProcThms ProcThms2 ProcThms3 CellSpec CellThms FloatBoxSpec FloatBox FloatWriteSpec FloatWrite.
From Coq Require Import Rdefinitions.
Local Open Scope R_scope.

Lemma eta_room : 4 * eta <= / 2 ^ 1000.
Proof.
  rewrite eta_val. replace 1075%nat with (1000 + 75)%nat by reflexivity. rewrite pow_add, Rinv_mult.
  assert (0 < / 2 ^ 1000) by (apply Rinv_0_lt_compat, pow2_pos). assert (4 <= 2 ^ 75) by (replace 4 with (2 ^ 2) by ring; apply Rle_pow; [lra|lia]).
  assert (/ 2 ^ 75 <= / 4) by (apply Rinv_le; lra). nra.
Qed.
Section Numbers.
Variables y0 t y1 b th : NumF64.
Hypothesis M0 : moderate y0.
Hypothesis Mt : moderate t.
Hypothesis M1 : moderate y1.
Hypothesis Mb : moderate b.
Hypothesis Mh : moderate th.
Let m := Rabs (fval y0) + Rabs (fval t) + Rabs (fval y1) + Rabs (fval b) + Rabs (fval th).
Let up : NumF64 := add y0 t.
Let d : NumF64 := sub (sub (sub y1 b) up) th.
Lemma parts_m : sum_error [y0; t; y1; b; th] = 16 * u * m.
Proof. unfold sum_error. rewrite <- u_ten. cbn [map sumR fold_right]. unfold m. ring. Qed.
Lemma m_room : 0 <= m <= 20 * 2 ^ 200.
Proof.
  destruct M0 as [_ A], Mt as [_ B], M1 as [_ C], Mb as [_ D], Mh as [_ E]. assert (Q := pow2_pos 200).
  assert (A1 := Rabs_pos (fval y0)). assert (A2 := Rabs_pos (fval t)). assert (A3 := Rabs_pos (fval y1)). assert (A4 := Rabs_pos (fval b)). assert (A5 := Rabs_pos (fval th)). unfold m. lra.
Qed.
Lemma sizes : forall a e f g h, Rabs a <= 1 -> Rabs e <= 1 -> Rabs f <= 1 -> Rabs g <= 1 -> Rabs h <= 1 ->
  Rabs (a * fval y0 + e * fval t + f * fval y1 + g * fval b + h * fval th) <= m.
Proof.
  intros a e f g h A E F G H. assert (K : forall c v, Rabs c <= 1 -> Rabs (c * v) <= Rabs v) by (intros c v Hc; rewrite Rabs_mult; assert (P := Rabs_pos v); nra).
  assert (Ka := K a (fval y0) A). assert (Ke := K e (fval t) E). assert (Kf := K f (fval y1) F). assert (Kg := K g (fval b) G). assert (Kh := K h (fval th) H). unfold m.
  eapply Rle_trans; [apply Rabs_triang|]. apply Rplus_le_compat; [|exact Kh].
  eapply Rle_trans; [apply Rabs_triang|]. apply Rplus_le_compat; [|exact Kg].
  eapply Rle_trans; [apply Rabs_triang|]. apply Rplus_le_compat; [|exact Kf].
  eapply Rle_trans; [apply Rabs_triang|]. apply Rplus_le_compat; assumption.
Qed.
Lemma drop_float : fin up /\ fin d /\ Rabs (fval up - (fval y0 + fval t)) <= 2 * u * m /\
  Rabs (fval d - (fval y1 - fval b - fval up - fval th)) <= 6 * u * m /\ Rabs (fval d) <= 2 * m.
Proof.
  assert (U := u_small). assert (Hm := m_room). assert (Z : forall v, Rabs (v - v) <= 0 * u * m) by (intros v; replace (v - v) with 0 by ring; rewrite Rabs_R0; lra).
  assert (J : Rabs 1 <= 1) by (rewrite Rabs_R1; lra). assert (J' : Rabs (-1) <= 1) by (rewrite Rabs_left; lra). assert (O : Rabs 0 <= 1) by (rewrite Rabs_R0; lra).
  assert (S1 := sizes 1 1 0 0 0 J J O O O). assert (S2 := sizes 0 0 1 (-1) 0 O O J J' O).
  assert (S3 := sizes (-1) (-1) 1 (-1) 0 J' J' J J' O). assert (S4 := sizes (-1) (-1) 1 (-1) (-1) J' J' J J' J').
  destruct M0 as [F0 _], Mt as [Ft _], M1 as [F1 _], Mb as [Fb _], Mh as [Fh _].
  destruct (add_step y0 t (fval y0) 0 m F0 Ft ltac:(split; lra) Hm ltac:(match type of S1 with Rabs ?a <= _ => replace (fval y0 + fval t) with a by ring end; exact S1) (Z _)) as [Fu Du]. fold up in Fu, Du.
  destruct (sub_step y1 b (fval y1) 0 m F1 Fb ltac:(split; lra) Hm ltac:(match type of S2 with Rabs ?a <= _ => replace (fval y1 - fval b) with a by ring end; exact S2) (Z _)) as [Fl Dl].
  assert (Um : 0 <= u * m) by nra. assert (Um' : u * m <= m * / 10000000) by nra.
  (* the differences, with room for the rounding of [up] *)
  set (lo := sub y1 b : NumF64) in *.
  assert (B3 : Rabs (fval lo - fval up) <= 2 * m).
  { replace (fval lo - fval up) with ((fval lo - (fval y1 - fval b)) + (- (fval up - (fval y0 + fval t))) + (-1 * fval y0 + -1 * fval t + 1 * fval y1 + -1 * fval b + 0 * fval th)) by ring.
    eapply Rle_trans; [apply Rabs_triang|]. eapply Rle_trans; [apply Rplus_le_compat_r, Rabs_triang|]. rewrite Rabs_Ropp. lra. }
  assert (P := pow_room). destruct (sub_err lo up Fl Fu) as (F3 & e3 & E3 & V3); [lra|]. assert (D3 := abs_mul1 _ e3 _ B3 E3). rewrite <- V3 in D3.
  assert (B4 : Rabs (fval (sub lo up) - fval th) <= 2 * m).
  { replace (fval (sub lo up) - fval th) with ((fval (sub lo up) - (fval lo - fval up)) + (fval lo - (fval y1 - fval b)) + (- (fval up - (fval y0 + fval t))) + (-1 * fval y0 + -1 * fval t + 1 * fval y1 + -1 * fval b + -1 * fval th)) by ring.
    eapply Rle_trans; [apply Rabs_triang|]. eapply Rle_trans; [apply Rplus_le_compat_r, Rabs_triang|]. eapply Rle_trans; [apply Rplus_le_compat_r, Rplus_le_compat_r, Rabs_triang|]. rewrite Rabs_Ropp. lra. }
  destruct (sub_err (sub lo up) th F3 Fh) as (F4 & e4 & E4 & V4); [lra|]. assert (D4 := abs_mul1 _ e4 _ B4 E4). rewrite <- V4 in D4. fold d in F4, D4.
  split; [exact Fu|]. split; [exact F4|]. split; [replace (0 + 2) with 2 in Du by ring; exact Du|]. split.
  - replace (fval d - (fval y1 - fval b - fval up - fval th)) with ((fval d - (fval (sub lo up) - fval th)) + (fval (sub lo up) - (fval lo - fval up)) + (fval lo - (fval y1 - fval b))) by ring.
    eapply Rle_trans; [apply Rabs_triang|]. eapply Rle_trans; [apply Rplus_le_compat_r, Rabs_triang|]. nra.
  - replace (fval d) with ((fval d - (fval (sub lo up) - fval th)) + (fval (sub lo up) - (fval lo - fval up)) + (fval lo - (fval y1 - fval b)) + (- (fval up - (fval y0 + fval t))) + (-1 * fval y0 + -1 * fval t + 1 * fval y1 + -1 * fval b + -1 * fval th)) by ring.
    eapply Rle_trans; [apply Rabs_triang|]. eapply Rle_trans; [apply Rplus_le_compat_r, Rabs_triang|]. eapply Rle_trans; [apply Rplus_le_compat_r, Rplus_le_compat_r, Rabs_triang|]. eapply Rle_trans; [apply Rplus_le_compat_r, Rplus_le_compat_r, Rplus_le_compat_r, Rabs_triang|]. rewrite Rabs_Ropp. lra.
Qed.
Lemma up_size : Rabs (fval up) <= 2 * m.
Proof.
  destruct drop_float as (_ & _ & D & _). assert (U := u_small). assert (Hm := m_room). assert (Um' : u * m <= m * / 10000000) by nra.
  assert (J : Rabs 1 <= 1) by (rewrite Rabs_R1; lra). assert (O : Rabs 0 <= 1) by (rewrite Rabs_R0; lra). assert (S1 := sizes 1 1 0 0 0 J J O O O).
  replace (fval up) with ((fval up - (fval y0 + fval t)) + (1 * fval y0 + 1 * fval t + 0 * fval y1 + 0 * fval b + 0 * fval th)) by ring. eapply Rle_trans; [apply Rabs_triang|]. lra.
Qed.
Lemma low_float : let y := add up d : NumF64 in Rabs (fval y + fval th - (fval y1 - fval b)) <= sum_error [y0; t; y1; b; th].
Proof.
  intros y. destruct drop_float as (Fu & Fd & Du & Dd & Sd). assert (Su := up_size). assert (U := u_small). assert (Hm := m_room). assert (P := pow_room). rewrite parts_m.
  assert (Um : 0 <= u * m) by nra.
  assert (B : Rabs (fval up + fval d) <= 4 * m) by (eapply Rle_trans; [apply Rabs_triang|]; lra).
  destruct (add_err up d Fu Fd) as (Fy & e & E & V); [lra|]. assert (D := abs_mul1 _ e _ B E). rewrite <- V in D. fold y in D.
  replace (fval y + fval th - (fval y1 - fval b)) with ((fval y - (fval up + fval d)) + (fval d - (fval y1 - fval b - fval up - fval th))) by ring.
  eapply Rle_trans; [apply Rabs_triang|]. nra.
Qed.
Lemma mid_float : let y := add up (div d (of_Z 2)) : NumF64 in
  Rabs (fval y - (fval y0 + fval t) - (fval y1 - fval b - (fval y + fval th))) <= 2 * sum_error [y0; t; y1; b; th] + / 2 ^ 1000.
Proof.
  intros y. destruct drop_float as (Fu & Fd & Du & Dd & Sd). assert (Su := up_size). assert (U := u_small). assert (Hm := m_room). assert (P := pow_room). rewrite parts_m.
  assert (Um : 0 <= u * m) by nra.
  destruct (of_Z_ok 2) as [F2 V2]; [lia|]. change (IZR 2) with 2 in V2.
  assert (B2 : Rabs (fval d / 2) <= m) by (unfold Rdiv; rewrite Rabs_mult, (Rabs_pos_eq (/ 2)) by lra; lra).
  destruct (div_err d (of_Z 2) Fd F2) as (Fq & e & q & E & Q & V); [rewrite V2; lra|rewrite V2; lra|]. rewrite V2 in V.
  assert (D1 := abs_mul1 _ e _ B2 E).
  assert (Eta : 4 * eta <= / 2 ^ 1000) by exact eta_room.
  assert (Q0 := Rabs_pos q).
  set (g := div d (of_Z 2) : NumF64) in *.
  assert (Dg : Rabs (fval g - fval d / 2) <= u * m + eta).
  { rewrite V. replace (fval d / 2 * (1 + e) + q - fval d / 2) with ((fval d / 2 * (1 + e) - fval d / 2) + q) by ring. eapply Rle_trans; [apply Rabs_triang|]. lra. }
  assert (B : Rabs (fval up + fval g) <= 4 * m + eta).
  { replace (fval up + fval g) with (fval up + (fval d / 2) + (fval g - fval d / 2)) by ring. eapply Rle_trans; [apply Rabs_triang|]. eapply Rle_trans; [apply Rplus_le_compat_r, Rabs_triang|]. nra. }
  assert (R1 : / 2 ^ 1000 <= 1) by (rewrite <- Rinv_1; apply Rinv_le; [lra|apply pow_R1_Rle; lra]).
  assert (R2 : 2 <= 2 ^ 200) by (rewrite <- (pow_1 2) at 1; apply Rle_pow; [lra|lia]).
  destruct (add_err up g Fu Fq) as (Fy & e' & E' & V'); [lra|]. assert (D := abs_mul1 _ e' _ B E'). rewrite <- V' in D. fold y in D.
  replace (fval y - (fval y0 + fval t) - (fval y1 - fval b - (fval y + fval th))) with
    (2 * (fval y - (fval up + fval g)) + 2 * (fval g - fval d / 2) + (fval d - (fval y1 - fval b - fval up - fval th)) + (fval up - (fval y0 + fval t))) by field.
  assert (T2 : Rabs 2 = 2) by (apply Rabs_pos_eq; lra).
  eapply Rle_trans; [apply Rabs_triang|]. eapply Rle_trans; [apply Rplus_le_compat_r, Rabs_triang|]. eapply Rle_trans; [apply Rplus_le_compat_r, Rplus_le_compat_r, Rabs_triang|]. rewrite !Rabs_mult, T2. nra.
Qed.
End Numbers.

Section Align.
Context {eng : Engine NumF64} (tw : Font NumF64 -> bytes -> NumF64) (fh : Font NumF64 -> NumF64) (font : est eng -> Font NumF64).
Local Notation PS := (PS NumF64 eng).
Hypothesis W : float_printer eng tw fh font.
Hypothesis Hplace : places eng.
Hypothesis Hkeep : forall (v : NumF64) (e : est eng), currentPage (simple (SetX v) e) = currentPage e /\ currentPage (simple (SetY v) e) = currentPage e.
Variables (env : Env NumF64) (callback : cb -> M eng unit).
Lemma no_children_f : forall va pa iss (s s' : PS), (forall i, In i iss -> text_only i = true) -> cell_boxes env callback va pa iss s = Ok tt s' -> s' = s.
Proof.
  intros va pa. induction iss as [|i iss IH]; intros s s' Hi H; [injection H as <-; reflexivity|]. cbn [cell_boxes] in H. apply bind_ok in H as ([] & s3 & H1 & H).
  rewrite (IH s3 s'); [|intros j Hj; apply Hi; right; exact Hj|exact H]. specialize (Hi i (or_introl eq_refl)). destruct i; try discriminate Hi; injection H1 as <-; reflexivity.
Qed.
Lemma cell_aligned_float : forall h pa (x : tcell NumF64) (s s' : PS),
  let sty := c_sty x in
  let pad := Padding (SBox sty) in
  beqb (HAlign (SAlign sty)) ($"block") = false -> c_iss x <> [] -> (forall i, In i (c_iss x) -> text_only i = true) ->
  fh (SFont sty) = h -> (forall n f, In f (text_fonts (e_mut env) false n sty (c_iss x)) -> fh f = h) ->
  let width : NumF64 := sub (sub (pa_x1 pa) (QRight pad)) (add (pa_x0 pa) (QLeft pad)) in
  sub (sub (sub (pa_x1 pa) (pa_x0 pa)) (QLeft pad)) (QRight pad) = width ->
  renderCell env callback pa x s = Ok tt s' ->
  exists before y text (s1 s2 : PS),
    wrote s s2 (before ++ [Simple (SetY (F:=NumF64) y); Simple (SetX (add (pa_x0 pa) (QLeft pad)))]) /\
    text_written env sty (c_iss x) width (fst (getXY (ps_eng s2))) s2 text /\
    wrote s2 s' (text ++ [Simple (SetX (add (pa_x0 pa) (QLeft pad)))]) /\
    (let n := measured_lines (e_mut env) (e_hyph env) (c_iss x) width sty s1 in
     let th := fst (textHeightFnc (e_mut env) (e_hyph env) sty (c_iss x) width sty s1) in
     let l := LineSpacing (SDim sty) in
     let parts := [pa_y0 pa; QTop pad; pa_y1 pa; QBottom pad; th] in
     let upper := fval (pa_y0 pa) + fval (QTop pad) in
     let lower := fval (pa_y1 pa) - fval (QBottom pad) in
     let ending := fval (snd (getXY (ps_eng s'))) - (fval l - 1) * fval h in
     (Z.of_nat n < 2 ^ 20)%Z -> (forall v, In v parts -> moderate v) -> moderate y -> 0 <= fval y ->
     moderate h -> 0 <= fval h -> moderate l -> 0 <= fval l -> moderate (mul h l) ->
     let rounding := height_error n (fval y) (fval h) (fval l) in
     if beqb (VAlign (SAlign sty)) ($"middle") then Rabs ((fval y - upper) - (lower - ending)) <= 2 * sum_error parts + rounding + / 2 ^ 1000
     else if beqb (VAlign (SAlign sty)) ($"bottom") then Rabs (ending - lower) <= sum_error parts + rounding
     else y = add (pa_y0 pa) (QTop pad)).
Proof.
  intros h pa x s s' sty pad Hb Hn Hi Hf Hfs width Hw H. unfold renderCell in H. cbv zeta in H. fold sty pad in H.
  apply bind_ok in H as ([] & s1 & H1 & H). apply lift_ok in H1. rewrite drawBox_run in H1. apply pair_equal_spec in H1 as [_ <-].
  apply bind_ok in H as ([] & s2 & H2 & H). apply bind_ok in H as ([] & s3 & H3 & H). apply wrote_lift_emit in H3 as [E3 W3]. apply no_children_f in H; [|exact Hi]. subst s'.
  destruct (c_iss x) as [|i iss] eqn:Ei; [congruence|]. rewrite <- Ei in *.
  assert (Hp : page_stable (eng:=eng)) by exact (writer_stable tw fh font W).
  apply bind_ok in H2 as (th & sm & H1 & H2). apply lift_ok in H1.
  destruct (height_fonts env Hplace Hp _ _ _ _ _ _ H1) as (ms & Wm & Om & Xm & Pm).
  apply bind_ok in H2 as ([] & sa & Ha & H2). apply lift_dropped in Ha as [Ea Wa].
  apply bind_ok in H2 as ([] & sb & Hb2 & H2). apply wrote_lift_emit in Hb2 as [Eb Wb].
  unfold pa_width at 1 in H2. rewrite Hw in H2.
  change (pa_width (with_padding pad pa)) with width in H1.
  destruct (fnc_written env callback Hplace Hp _ _ _ _ _ H2) as (text & Wt & Tw).
  set (y := dropped (VAlign (SAlign sty)) (pa_y0 (with_padding pad pa)) (sub (pa_height (with_padding pad pa)) th)) in *.
  set (sx := emits (box_cmds (pa_x0 pa) (pa_y0 pa) (pa_x1 pa) (pa_y1 pa) sty) s) in *.
  exists (map Simple (box_cmds (pa_x0 pa) (pa_y0 pa) (pa_x1 pa) (pa_y1 pa) sty) ++ ms), y, text, sx, sb.
  split. { rewrite <- app_assoc. eapply wrote_app; [apply wrote_emits|]. eapply wrote_app; [exact Wm|]. eapply wrote_cons; [exact Wa|exact Wb]. }
  split; [exact Tw|]. split; [eapply wrote_app; [exact Wt|exact W3]|].
  assert (Eh : textHeightFnc (e_mut env) (e_hyph env) sty (c_iss x) width sty sx = (th, sm)) by (unfold textHeightFnc; rewrite Hb; exact H1).
  intros n th0 l parts upper lower ending. assert (Et : th0 = th) by (unfold th0; rewrite Eh; reflexivity). clearbody th0. subst th0. intros Kn Kp Ky Py Kh Ph Kl Pl Kp'.
  assert (M0 := Kp _ (or_introl eq_refl)). assert (Mt := Kp _ (or_intror (or_introl eq_refl))). assert (M1 := Kp _ (or_intror (or_intror (or_introl eq_refl)))).
  assert (Mb := Kp _ (or_intror (or_intror (or_intror (or_introl eq_refl))))). assert (Mh := Kp _ (or_intror (or_intror (or_intror (or_intror (or_introl eq_refl)))))).
  assert (Ey : snd (getXY (ps_eng sb)) = y).
  { rewrite Eb, emitted_eng, (L_x_y _ Hplace), Ea, emitted_eng. apply (L_y _ Hplace). unfold from_edge. assert (Fz : fin (zero : NumF64)) by (split; reflexivity).
    rewrite (leb_ok _ _ Fz (proj1 Ky)). apply Rle_bool_true. exact Py. }
  assert (Pb : currentPage (ps_eng sx) = currentPage (ps_eng sb)).
  { rewrite Eb, emitted_eng, (proj1 (Hkeep _ _)), Ea, emitted_eng, (proj2 (Hkeep _ _)), Pm. reflexivity. }
  destruct (written_height_float eng (e_mut env) (e_hyph env) tw fh font W callback h (c_iss x) width sty sb sx s2 ltac:(rewrite Hb; split; [exact Hf|apply Hfs]) Pb H2 Kn) as (_ & _ & D); try assumption; try (rewrite Ey; assumption).
  rewrite Ey, Eh in D. cbn [fst] in D. fold n l in D.
  assert (E : snd (getXY (ps_eng s3)) = snd (getXY (ps_eng s2))) by (rewrite E3, emitted_eng; apply (L_x_y _ Hplace)).
  unfold ending. rewrite E. cbv zeta. set (he := height_error _ _ _ _) in *. unfold dropped in y. unfold pa_height in y. cbn [pa_y0 pa_y1 with_padding] in y.
  destruct (beqb (VAlign (SAlign sty)) ($"middle")); [|destruct (beqb (VAlign (SAlign sty)) ($"bottom"))].
  - assert (L := mid_float _ _ _ _ _ M0 Mt M1 Mb Mh). cbv zeta in L. change (add (add (pa_y0 pa) (QTop pad)) (div (sub (sub (sub (pa_y1 pa) (QBottom pad)) (add (pa_y0 pa) (QTop pad))) th) (of_Z 2))) with y in L. fold parts upper lower in L.
    match goal with |- Rabs ?a <= _ => replace a with ((fval y - upper - (lower - (fval y + fval th))) + (fval (snd (getXY (ps_eng s2))) - (fval y + (fval th + (fval l - 1) * fval h)))) by ring end.
    eapply Rle_trans; [apply Rabs_triang|]. lra.
  - assert (L := low_float _ _ _ _ _ M0 Mt M1 Mb Mh). cbv zeta in L. change (add (add (pa_y0 pa) (QTop pad)) (sub (sub (sub (pa_y1 pa) (QBottom pad)) (add (pa_y0 pa) (QTop pad))) th)) with y in L. fold parts lower in L.
    match goal with |- Rabs ?a <= _ => replace a with ((fval y + fval th - lower) + (fval (snd (getXY (ps_eng s2))) - (fval y + (fval th + (fval l - 1) * fval h)))) by ring end.
    eapply Rle_trans; [apply Rabs_triang|]. lra.
  - reflexivity.
Qed.
End Align.
