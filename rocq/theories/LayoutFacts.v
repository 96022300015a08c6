From Coq Require Import QArith Lqa Lia.
From Verif Require Import GoStr Num Style Class Instr Engine EngineFacts Layout LayoutSpec.
Local Open Scope Q_scope.

(** ** Comparisons of rationals *)
Lemma Qltb_true : forall a b : Q, @ltb NumQ a b = true <-> a < b.
Proof.
  intros. simpl. rewrite negb_true_iff. split.
  - intros H. apply Qnot_le_lt. intros Hle. apply Qle_bool_iff in Hle. congruence.
  - intros H. destruct (Qle_bool b a) eqn:E; [|reflexivity]. apply Qle_bool_iff in E. lra.
Qed.
Lemma Qltb_false : forall a b : Q, @ltb NumQ a b = false <-> b <= a.
Proof.
  intros. simpl. rewrite negb_false_iff. apply Qle_bool_iff.
Qed.
Lemma Qleb_true : forall a b : Q, @leb NumQ a b = true <-> a <= b.
Proof. intros. apply Qle_bool_iff. Qed.
Lemma Qleb_false : forall a b : Q, @leb NumQ a b = false <-> b < a.
Proof.
  intros. simpl. split.
  - intros H. apply Qnot_le_lt. intros Hle. apply Qle_bool_iff in Hle. congruence.
  - intros H. destruct (Qle_bool a b) eqn:E; [|reflexivity]. apply Qle_bool_iff in E. lra.
Qed.
Lemma zeroQ : (@zero NumQ : Q) == 0.
Proof. reflexivity. Qed.

(** Case split on every comparison of rationals in the goal. *)
Ltac qcases := repeat match goal with
  | |- context [@ltb NumQ ?a ?b] => let E := fresh "L" in destruct (@ltb NumQ a b) eqn:E;
      [apply Qltb_true in E | apply Qltb_false in E]; cbn [andb orb negb]
  | |- context [@leb NumQ ?a ?b] => let E := fresh "L" in destruct (@leb NumQ a b) eqn:E;
      [apply Qleb_true in E | apply Qleb_false in E]; cbn [andb orb negb]
  end.

(** ** C26 *)
Lemma effective_width_Q : forall (pa : PrintableArea NumQ) (w : Q),
  (0 <= w <= pa_width pa -> effective_width pa w = w) /\
  (~ 0 <= w <= pa_width pa -> effective_width pa w = pa_width pa) /\
  (effective_width pa w : Q) <= pa_width pa.
Proof.
  intros pa w. unfold effective_width. qcases; rewrite ?zeroQ in *; simpl in *;
    (split; [intros|split; [intros|]]); try reflexivity; try lra; exfalso; lra.
Qed.
Lemma page_effective_width_Q : forall (p : Page NumQ) w,
  page_effective_width p w = effective_width (pg_area p) w.
Proof. reflexivity. Qed.
Lemma page_effective_width_eq : forall (F : Num) (p : Page F) w,
  page_effective_width p w = effective_width (pg_area p) w.
Proof. reflexivity. Qed.
Lemma effective_width_any : forall (F : Num), (forall x : F, ltb x x = false) ->
  forall (pa : PrintableArea F) w, ltb (pa_width pa) (effective_width pa w) = false.
Proof.
  intros F Hirr pa w. unfold effective_width.
  destruct (ltb w zero); cbn [orb]; [apply Hirr|].
  destruct (ltb (pa_width pa) w) eqn:E; [apply Hirr|exact E].
Qed.

(** ** C27 *)
Section Draw.
Context {F : Num} {eng : Engine F}.
Definition box_cmds (x0 y0 x1 y1 : F) (sty : Styles F) : list (scmd F) :=
  (let halfLine := LineWidth sty / of_Z 2 in
   let width := x1 - x0 in
   let height := y1 - y0 in
   let fg := Foreground (SColor sty) in
   let bg := Background (SColor sty) in
   let bd := Border (SBox sty) in
   [SetLineWidth (LineWidth sty); SetDrawColor (R fg) (G fg) (B fg); SetFillColor (R bg) (G bg) (B bg);
    FillRect (x0 + halfLine) (y0 + halfLine) (width - of_Z 2 * halfLine) (height - of_Z 2 * halfLine);
    MoveTo (x0 - halfLine) y0;
    if (0 <? QTop bd)%Z then LineTo (x0 + width) y0 else MoveTo (x0 + width) y0;
    if (0 <? QRight bd)%Z then LineTo (x0 + width) y1 else MoveTo (x0 + width) y1;
    if (0 <? QBottom bd)%Z then LineTo x0 y1 else MoveTo x0 y1;
    if (0 <? QLeft bd)%Z then LineTo x0 y0 else MoveTo x0 y0;
    DrawPath])%num.
Definition box_painting (x0 y0 x1 y1 : F) (sty : Styles F) : list (painted F) :=
  (let h := LineWidth sty / of_Z 2 in
   let bd := Border (SBox sty) in
   let right := x0 + (x1 - x0) in
   [Filled (Background (SColor sty)) (x0 + h) (y0 + h) (x1 - x0 - of_Z 2 * h) (y1 - y0 - of_Z 2 * h);
    Stroked (LineWidth sty) (Foreground (SColor sty))
      ((if (0 <? QTop bd)%Z then [((x0 - h, y0), (right, y0))] else []) ++
       (if (0 <? QRight bd)%Z then [((right, y0), (right, y1))] else []) ++
       (if (0 <? QBottom bd)%Z then [((right, y1), (x0, y1))] else []) ++
       (if (0 <? QLeft bd)%Z then [((x0, y1), (x0, y0))] else []))])%num.

Lemma drawBox_run : forall x0 y0 x1 y1 sty (s : PS F eng),
  drawBox x0 y0 x1 y1 sty s = (tt, emits (box_cmds x0 y0 x1 y1 sty) s).
Proof.
  intros. unfold drawBox, box_cmds, set_draw_color, set_fill_color; cbv zeta.
  rewrite !sbind_emit, !emits_cons.
  destruct (0 <? QTop (Border (SBox sty)))%Z; destruct (0 <? QRight (Border (SBox sty)))%Z;
  destruct (0 <? QBottom (Border (SBox sty)))%Z; destruct (0 <? QLeft (Border (SBox sty)))%Z;
  rewrite !sbind_emit; rewrite emit_eq; reflexivity.
Qed.
Lemma box_paint : forall x0 y0 x1 y1 sty p, new_pen p ->
  paint p (map Simple (box_cmds x0 y0 x1 y1 sty)) = box_painting x0 y0 x1 y1 sty.
Proof.
  intros x0 y0 x1 y1 sty p Hp. unfold box_cmds, box_painting. cbv zeta. unfold new_pen in Hp.
  destruct (Foreground (SColor sty)), (Background (SColor sty)).
  destruct (0 <? QTop (Border (SBox sty)))%Z; destruct (0 <? QRight (Border (SBox sty)))%Z;
  destruct (0 <? QBottom (Border (SBox sty)))%Z; destruct (0 <? QLeft (Border (SBox sty)))%Z;
  cbv [map paint p_lw p_draw p_fill p_at p_segs Style.R Style.G Style.B app] in *; rewrite Hp; reflexivity.
Qed.
Lemma drawBox_paints : forall x0 y0 x1 y1 sty (s : PS F eng),
  exists new, ps_trace (snd (drawBox x0 y0 x1 y1 sty s)) = ps_trace s ++ new /\
  forall p, new_pen p -> paint p (map ev_cmd new) =
  (let h := LineWidth sty / of_Z 2 in
   let bd := Border (SBox sty) in
   let right := x0 + (x1 - x0) in
   [Filled (Background (SColor sty)) (x0 + h) (y0 + h) (x1 - x0 - of_Z 2 * h) (y1 - y0 - of_Z 2 * h);
    Stroked (LineWidth sty) (Foreground (SColor sty))
      ((if (0 <? QTop bd)%Z then [((x0 - h, y0), (right, y0))] else []) ++
       (if (0 <? QRight bd)%Z then [((right, y0), (right, y1))] else []) ++
       (if (0 <? QBottom bd)%Z then [((right, y1), (x0, y1))] else []) ++
       (if (0 <? QLeft bd)%Z then [((x0, y1), (x0, y0))] else []))])%num.
Proof.
  intros. rewrite drawBox_run. eexists. split; [apply emits_trace|]. intros p Hp. rewrite map_ev_plain. apply box_paint; exact Hp.
Qed.
End Draw.

(** ** C28 *)
Lemma px_mm_Q : forall z, (@px_mm NumQ z : Q) == inject_Z z * (254 # 960).
Proof. intros. unfold px_mm. simpl. unfold Qdiv. setoid_replace (/ (inject_Z 96 * / (inject_Z 254 * / inject_Z 10))) with (254 # 960) by reflexivity. reflexivity. Qed.

Lemma fit_Q : forall wr hr pw ph : Q, 0 < wr -> 0 < hr -> 0 < pw -> 0 < ph ->
  let '(w, h) :=
    let '(w1, h1) := if @ltb NumQ pw wr then (pw, hr * pw / wr) else (wr, hr) in
    if @ltb NumQ ph h1 then (w1 * ph / h1, ph) else (w1, h1) in
  fitted wr hr pw ph w h.
Proof.
  intros wr hr pw ph Hw Hh Hpw Hph.
  assert (Hdiv : forall a b, 0 < b -> b * (a / b) == a) by (intros; apply Qmult_div_r; lra).
  assert (Hpos : forall a b, 0 < a -> 0 < b -> 0 < a / b) by (intros; apply Qlt_shift_div_l; lra).
  qcases.
  - exists (ph / hr). 
    assert (E1 : 0 < hr * pw / wr) by (apply Hpos; [nra|lra]).
    assert (K : pw * ph / (hr * pw / wr) == ph / hr * wr) by (field; lra).
    assert (Hk : ph / hr <= pw / wr). { apply Qle_shift_div_r; [lra|]. setoid_replace (pw / wr * hr) with (hr * pw / wr) by (field; lra). lra. }
    assert (pw / wr <= 1). { apply Qle_shift_div_r; lra. }
    split. { split; [apply Hpos; lra|lra]. }
    split. { split; [exact K|]. field. lra. }
    split. { split; [|lra]. rewrite K. pose proof (Hdiv pw wr Hw). nra. }
    right; right; reflexivity.
  - exists (pw / wr). split. { split; [apply Hpos; lra|apply Qle_shift_div_r; lra]. }
    split. { split; field; lra. }
    split. { split; lra. }
    right; left; reflexivity.
  - exists (ph / hr). split. { split; [apply Hpos; lra|apply Qle_shift_div_r; lra]. }
    split. { split; field; lra. }
    split. { split; [|lra]. apply Qle_shift_div_r; [lra|]. nra. }
    right; right; reflexivity.
  - exists 1. split; [lra|]. split; [split; ring|]. split; [split; lra|]. left; reflexivity.
Qed.
Lemma ratio_Q : forall pa pb a b c W, pa == a * c -> pb == b * c -> 0 < b -> 0 < c -> pa / pb * W * b == W * a.
Proof. intros pa pb a b c W E1 E2 Hb Hc. rewrite E1, E2. field. split; lra. Qed.
Lemma image_size_Q : forall (pa : PrintableArea NumQ) (sty : Styles NumQ) wpx hpx, (0 < wpx)%Z -> (0 < hpx)%Z ->
  0 < (pa_width pa - OffsetX (SDim sty) : Q) -> 0 < (pa_height pa - OffsetY (SDim sty) : Q) ->
  exists wr hr, requested_size wpx hpx (Width (SDim sty)) (Height (SDim sty)) wr hr /\
    let '(w, h) := image_size pa sty wpx hpx in
    fitted wr hr (pa_width pa - OffsetX (SDim sty)) (pa_height pa - OffsetY (SDim sty)) w h.
Proof.
  intros pa sty wpx hpx Hw Hh Hpw Hph.
  assert (Hwq : 0 < inject_Z wpx) by (change 0 with (inject_Z 0); rewrite <- Zlt_Qlt; exact Hw).
  assert (Hhq : 0 < inject_Z hpx) by (change 0 with (inject_Z 0); rewrite <- Zlt_Qlt; exact Hh).
  assert (Hwm : 0 < (@px_mm NumQ wpx : Q)) by (rewrite px_mm_Q; nra).
  assert (Hhm : 0 < (@px_mm NumQ hpx : Q)) by (rewrite px_mm_Q; nra).
  set (W := Width (SDim sty) : carrier NumQ) in *. set (H := Height (SDim sty) : carrier NumQ) in *.
  assert (Hsel : exists wr hr : carrier NumQ, 0 < wr /\ 0 < hr /\ requested_size wpx hpx W H wr hr /\
     (if @ltb NumQ zero W && @ltb NumQ zero H then (W, H)
      else if @leb NumQ W zero && @ltb NumQ zero H then (@px_mm NumQ wpx / @px_mm NumQ hpx * H, H)%num
      else if @ltb NumQ zero W && @leb NumQ H zero then (W, @px_mm NumQ hpx / @px_mm NumQ wpx * W)%num
      else (@px_mm NumQ wpx, @px_mm NumQ hpx)) = (wr, hr)).
  { assert (Hpos : forall a b, 0 < a -> 0 < b -> 0 < a / b) by (intros; apply Qlt_shift_div_l; lra).
    qcases; rewrite ?zeroQ in *; try (exfalso; lra).
    - exists W, H. split; [exact L|]. split; [exact L0|]. split; [|reflexivity].
      unfold requested_size. split; [split; reflexivity|]. split; [intros; lra|]. split; [intros; lra|intros; lra].
    - eexists _, _. split; [exact L|]. split; [|split; [|reflexivity]].
      { exact (Qmult_lt_0_compat _ _ (Hpos _ _ Hhm Hwm) L). }
      unfold requested_size. split; [intros; lra|]. split; [intros; lra|]. split; [|intros; lra].
      intros _ _. split; [reflexivity|]. apply (ratio_Q _ _ _ _ (254 # 960) _ (px_mm_Q _) (px_mm_Q _)); [assumption|reflexivity].
    - eexists _, _. split; [|split; [exact L0|split; [|reflexivity]]].
      { exact (Qmult_lt_0_compat _ _ (Hpos _ _ Hwm Hhm) L0). }
      unfold requested_size. split; [intros; lra|]. split; [|split; [intros; lra|intros; lra]].
      intros _ _. split; [reflexivity|]. apply (ratio_Q _ _ _ _ (254 # 960) _ (px_mm_Q _) (px_mm_Q _)); [assumption|reflexivity].
    - exists (@px_mm NumQ wpx), (@px_mm NumQ hpx). split; [exact Hwm|]. split; [exact Hhm|]. split; [|reflexivity].
      unfold requested_size. split; [intros; lra|]. split; [intros; lra|]. split; [intros; lra|].
      intros _ _. split; apply px_mm_Q.
    }
  destruct Hsel as (wr & hr & Hwr & Hhr & Hreq & Hsel). exists wr, hr. split; [exact Hreq|].
  unfold image_size. fold W H. cbv zeta. rewrite Hsel.
  exact (fit_Q wr hr _ _ Hwr Hhr Hpw Hph).
Qed.
Lemma right_edge : forall x0 x1 : Q, x0 + (x1 - x0) == x1.
Proof. intros. ring. Qed.
