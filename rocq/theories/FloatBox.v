(** The lower edges of boxes, and the printable area, in binary64 (C63, C92). *)
From Coq Require Import ZArith Reals Lia Lra Psatz Floats.SpecFloat.
From Flocq Require Import Core.Core.
From Verif Require Import GoStr Num Style Class Instr Engine Layout Grid Table Lines Proc EngineFacts ProcView TableView TableSpec DrawSpec TableFacts SpanFacts NormFacts WidthFacts HeightFacts TableMain TableThms SizeThms AreaThms FloatSpec FloatBase FloatRel FloatTable FloatLines FloatEdges.
From Verif Require Import LayoutSpec LinesSpec LinesLink WriteSpec WriteFacts ProcInv ProcSpec ProcThms3 Fpdf FloatTall FloatBoxSpec.
From Coq Require Import Rdefinitions.
Local Open Scope R_scope.

Lemma pow_room : 100 * 2 ^ 200 <= 2 ^ 1000.
Proof.
  replace 1000%nat with (200 + 800)%nat by reflexivity. rewrite pow_add. assert (2 ^ 7 <= 2 ^ 800) by (apply Rle_pow; [lra|lia]). assert (Q := pow2_pos 200).
  assert (2 ^ 200 * 2 ^ 7 <= 2 ^ 200 * 2 ^ 800) by (apply Rmult_le_compat_l; lra). lra.
Qed.
(** One addition more: [k] counts the errors so far, [m] bounds all sizes. *)
Lemma add_step : forall (x y : NumF64) v k m, fin x -> fin y -> 0 <= k <= 20 -> 0 <= m <= 20 * 2 ^ 200 -> Rabs (v + fval y) <= m ->
  Rabs (fval x - v) <= k * u * m -> fin (add x y) /\ Rabs (fval (add x y) - (v + fval y)) <= (k + 2) * u * m.
Proof.
  intros x y v k m Fx Fy Hk Hm Hv Hx. assert (U := u_small). assert (P := pow_room).
  assert (Um : u * m <= m * / 10000000) by nra. assert (U0 : 0 <= u * m) by nra. assert (K1 : k * u * m <= 20 * (u * m)) by nra. assert (K0 : 0 <= k * u * m) by nra.
  assert (B : Rabs (fval x + fval y) <= 2 * m).
  { replace (fval x + fval y) with ((fval x - v) + (v + fval y)) by ring. eapply Rle_trans; [apply Rabs_triang|]. lra. }
  destruct (add_err x y Fx Fy) as (Fa & e & E & V); [lra|]. split; [exact Fa|].
  assert (D := abs_mul1 _ e _ B E). rewrite <- V in D.
  replace (fval (add x y) - (v + fval y)) with ((fval (add x y) - (fval x + fval y)) + (fval x - v)) by ring.
  eapply Rle_trans; [apply Rabs_triang|]. nra.
Qed.
Lemma u_ten : 16 * u = / 2 ^ 49.
Proof. rewrite u_val. replace 53%nat with (4 + 49)%nat by reflexivity. rewrite pow_add. assert (Q := pow2_pos 49). field. Qed.
Lemma edge_float : forall y o h t b B : NumF64, moderate y -> moderate o -> moderate h -> moderate t -> moderate b -> fin B ->
  (fval y + fval h < fval B \/ fval (add y h) < fval B) ->
  let e := add (add (add (add y o) h) t) b : NumF64 in
  fin e /\ fval e <= fval B + fval o + fval t + fval b + sum_error [y; o; h; t; b].
Proof.
  intros y o h t b B [Fy My] [Fo Mo] [Fh Mh] [Ft Mt] [Fb Mb] FB HB e. assert (U := u_small).
  set (m := Rabs (fval y) + Rabs (fval o) + Rabs (fval h) + Rabs (fval t) + Rabs (fval b)).
  assert (S : sum_error [y; o; h; t; b] = 16 * u * m) by (unfold sum_error; rewrite <- u_ten; cbn [map sumR fold_right]; unfold m; ring).
  assert (A1 := Rabs_pos (fval y)). assert (A2 := Rabs_pos (fval o)). assert (A3 := Rabs_pos (fval h)). assert (A4 := Rabs_pos (fval t)). assert (A5 := Rabs_pos (fval b)).
  assert (T1 := Rabs_triang (fval y) (fval o)). assert (T2 := Rabs_triang (fval y + fval o) (fval h)). assert (T3 := Rabs_triang (fval y + fval o + fval h) (fval t)). assert (T4 := Rabs_triang (fval y + fval o + fval h + fval t) (fval b)). assert (T5 := Rabs_triang (fval y) (fval h)).
  assert (Q := pow2_pos 200). assert (Hm : 0 <= m <= 20 * 2 ^ 200) by (unfold m; lra).
  assert (Z : Rabs (fval y - fval y) <= 0 * u * m) by (replace (fval y - fval y) with 0 by ring; rewrite Rabs_R0; lra).
  destruct (add_step y o (fval y) 0 m Fy Fo ltac:(split; lra) Hm ltac:(subst m; lra) Z) as [F1 D1].
  destruct (add_step (add y o) h (fval y + fval o) (0 + 2) m F1 Fh ltac:(split; lra) Hm ltac:(subst m; lra) D1) as [F2 D2].
  destruct (add_step (add (add y o) h) t (fval y + fval o + fval h) (0 + 2 + 2) m F2 Ft ltac:(split; lra) Hm ltac:(subst m; lra) D2) as [F3 D3].
  destruct (add_step (add (add (add y o) h) t) b (fval y + fval o + fval h + fval t) (0 + 2 + 2 + 2) m F3 Fb ltac:(split; lra) Hm ltac:(subst m; lra) D3) as [F4 D4].
  destruct (add_step y h (fval y) 0 m Fy Fh ltac:(split; lra) Hm ltac:(subst m; lra) Z) as [F5 D5].
  split; [exact F4|]. rewrite S. fold e in D4. apply Rabs_le_inv in D4. apply Rabs_le_inv in D5. assert (0 <= u * m) by nra. destruct HB as [HB|HB]; nra.
Qed.
Lemma box_bottom_float : forall (env : Env NumF64) (eng : Engine NumF64) (callback : cb -> M eng unit), places eng -> page_stable (eng:=eng) -> forall top,
  (forall s1 s2 : PS NumF64 eng, add_page callback s1 = Ok tt s2 -> snd (getXY (ps_eng s2)) = top) ->
  forall st iss pa (s s' : PS NumF64 eng), ps_prevent s = false -> renderTextBox env callback st iss pa s = Ok tt s' ->
  let sty := e_mut env st (ps_sty s) in
  let pad := Padding (SBox sty) in
  exists h s1 s2 frame rest x0 y0 x1 y1,
    box_height env sty iss (sub (sub (effective_width pa (Width (SDim sty))) (QLeft pad)) (QRight pad)) s h s1 /\
    wrote s2 s' (frame ++ rest) /\ draws_box x0 y0 x1 y1 sty frame /\
    (let '(_, _, _, m) := margins (ps_eng s1) in
     let bottom := sub (pageHeight (ps_eng s1)) m in
     let parts := [snd (getXY (ps_eng s2)); OffsetY (SDim sty); h; QTop pad; QBottom pad] in
     fin bottom -> (forall v, In v parts -> moderate v) -> fval top + fval h < fval bottom ->
     fin y1 /\ fval y1 <= fval bottom + fval (OffsetY (SDim sty)) + fval (QTop pad) + fval (QBottom pad) + sum_error parts).
Proof.
  intros env eng callback Hplace Hpage top Htop st iss pa s s' Hp H sty pad. destruct (box_framed env callback Hplace Hpage st iss pa s s' H) as (h & s1 & s2 & frame & s3 & text & Hh & B & D & _ & _ & _ & W & _).
  exists h, s1, s2, frame. eexists _, _, _, _, _. split; [exact Hh|]. split; [exact W|]. split; [exact D|].
  assert (Hpv : ps_prevent s1 = ps_prevent s).
  { clear - Hh. assert (G : forall iss width sty (s : PS NumF64 eng), ps_prevent (snd (box_text_height env iss width sty s)) = ps_prevent s).
    { intros iss0 width sty0 s0. apply (sok_bth env (fun a b => ps_prevent b = ps_prevent a) (fun _ => True)); auto; try congruence. }
    specialize (G iss (sub (sub (effective_width pa (Width (SDim (e_mut env st (ps_sty s))))) (QLeft (Padding (SBox (e_mut env st (ps_sty s)))))) (QRight (Padding (SBox (e_mut env st (ps_sty s)))))) (e_mut env st (ps_sty s)) s). unfold box_text_height in G. unfold box_height in Hh.
    destruct (Num.leb _ _); [|destruct Hh as [_ ->]; reflexivity]. destruct iss; [destruct Hh as [_ ->]; reflexivity|]. unfold p_textHeightFnc in G. rewrite Hh in G. exact G. }
  unfold box_break in B. destruct (margins (ps_eng s1)) as [[[? ?] ?] m]. rewrite Hpv, Hp in B. cbn [negb andb] in B.
  intros bottom parts FB Mp Ht. unfold parts. assert (M1 := Mp _ (or_introl eq_refl)). assert (M2 := Mp _ (or_intror (or_introl eq_refl))). assert (M3 := Mp _ (or_intror (or_intror (or_introl eq_refl)))).
  assert (M4 := Mp _ (or_intror (or_intror (or_intror (or_introl eq_refl))))). assert (M5 := Mp _ (or_intror (or_intror (or_intror (or_intror (or_introl eq_refl)))))).
  refine (edge_float _ _ _ _ _ bottom M1 M2 M3 M4 M5 FB _).
  destruct (Num.leb (sub (pageHeight (ps_eng s1)) m) (add (snd (getXY (ps_eng s1))) h)) eqn:El.
  - left. rewrite (Htop _ _ B). exact Ht.
  - right. subst s2. fold bottom in El. destruct M1 as [Fy My], M3 as [Fh Mh]. destruct (add_err (snd (getXY (ps_eng s1))) h Fy Fh) as [Fa _].
    { assert (T := Rabs_triang (fval (snd (getXY (ps_eng s1)))) (fval h)). assert (P := pow_room). lra. }
    rewrite (leb_ok _ _ FB Fa) in El. destruct (Rle_bool_spec (fval bottom) (fval (add (snd (getXY (ps_eng s1))) h))); [discriminate El|assumption].
Qed.
Lemma sub_step : forall (x y : NumF64) v k m, fin x -> fin y -> 0 <= k <= 20 -> 0 <= m <= 20 * 2 ^ 200 -> Rabs (v - fval y) <= m ->
  Rabs (fval x - v) <= k * u * m -> fin (sub x y) /\ Rabs (fval (sub x y) - (v - fval y)) <= (k + 2) * u * m.
Proof.
  intros x y v k m Fx Fy Hk Hm Hv Hx. assert (U := u_small). assert (P := pow_room).
  assert (Um : u * m <= m * / 10000000) by nra. assert (U0 : 0 <= u * m) by nra. assert (K1 : k * u * m <= 20 * (u * m)) by nra. assert (K0 : 0 <= k * u * m) by nra.
  assert (B : Rabs (fval x - fval y) <= 2 * m).
  { replace (fval x - fval y) with ((fval x - v) + (v - fval y)) by ring. eapply Rle_trans; [apply Rabs_triang|]. lra. }
  destruct (sub_err x y Fx Fy) as (Fa & e & E & V); [lra|]. split; [exact Fa|].
  assert (D := abs_mul1 _ e _ B E). rewrite <- V in D.
  replace (fval (sub x y) - (v - fval y)) with ((fval (sub x y) - (fval x - fval y)) + (fval x - v)) by ring.
  eapply Rle_trans; [apply Rabs_triang|]. nra.
Qed.
Lemma area_float : forall (pdf : Pdf NumF64) (e : est (FPDF NumF64 pdf)),
  let '(l, t, r, b) := margins e in let '(x0, y0, x1, y1) := printableArea e in
  moderate r -> moderate b -> moderate (pageWidth e) -> moderate (pageHeight e) ->
  x0 = l /\ y0 = t /\ fin x1 /\ fin y1 /\
  Rabs (fval x1 + 2 + fval r - fval (pageWidth e)) <= sum_error [pageWidth e; r; of_Z 2] /\
  Rabs (fval y1 + fval b - fval (pageHeight e)) <= sum_error [pageHeight e; b].
Proof.
  intros pdf e. cbn -[of_Z sub Rabs Rmult Rplus Rminus sum_error]. unfold fpdf_area. destruct (getMargins NumF64 pdf e) as [[[l t] r] b]. destruct (getPageSize NumF64 pdf e) as [pw ph]. cbn [fst snd].
  intros [Fr Mr] [Fb Mb] [Fw Mw] [Fh Mh]. split; [reflexivity|]. split; [reflexivity|]. assert (U := u_small).
  destruct (of_Z_ok 2) as [F2 V2]; [lia|]. change (IZR 2) with 2 in V2. assert (A2 : Rabs 2 = 2) by (apply Rabs_pos_eq; lra).
  assert (A1 := Rabs_pos (fval pw)). assert (A3 := Rabs_pos (fval r)). assert (A4 := Rabs_pos (fval ph)). assert (A5 := Rabs_pos (fval b)).
  assert (Q : 2 <= 2 ^ 200) by (rewrite <- (pow_1 2) at 1; apply Rle_pow; [lra|lia]).
  assert (T1 := Rabs_triang (fval pw) (- fval r)). assert (T2 := Rabs_triang (fval pw - fval r) (- 2)). assert (T3 := Rabs_triang (fval ph) (- fval b)). rewrite Rabs_Ropp in T1, T3. assert (A2' : Rabs (-2) = 2) by (rewrite Rabs_left; lra). rewrite A2' in T2.
  set (m := Rabs (fval pw) + Rabs (fval r) + 2). set (n := Rabs (fval ph) + Rabs (fval b)).
  assert (Z : forall v k, Rabs (v - v) <= 0 * u * k) by (intros v k; replace (v - v) with 0 by ring; rewrite Rabs_R0; lra).
  assert (Hm : 0 <= m <= 20 * 2 ^ 200) by (unfold m; lra). assert (Hn : 0 <= n <= 20 * 2 ^ 200) by (unfold n; lra).
  destruct (sub_step pw r (fval pw) 0 m Fw Fr ltac:(split; lra) Hm ltac:(subst m; unfold Rminus in *; lra) (Z _ _)) as [F3 D3].
  destruct (sub_step (sub pw r) (of_Z 2) (fval pw - fval r) (0 + 2) m F3 F2 ltac:(split; lra) Hm ltac:(rewrite V2; replace (fval pw - fval r - 2) with (fval pw - fval r + -2) by ring; subst m; unfold Rminus in *; lra) D3) as [F4 D4].
  destruct (sub_step ph b (fval ph) 0 n Fh Fb ltac:(split; lra) Hn ltac:(subst n; unfold Rminus in *; lra) (Z _ _)) as [F5 D5].
  assert (Um : 0 <= u * m) by nra. assert (Un : 0 <= u * n) by nra.
  split; [exact F4|]. split; [exact F5|]. unfold sum_error. rewrite <- u_ten. cbn [map sumR fold_right]. rewrite V2 in *. rewrite A2. split.
  - match goal with |- Rabs ?a <= _ => replace a with (fval (sub (sub pw r) (of_Z 2)) - (fval pw - fval r - 2)) by (cbn; ring) end.
    eapply Rle_trans; [exact D4|]. fold m. replace (Rabs (fval pw) + (Rabs (fval r) + (2 + 0))) with m by (unfold m; ring). nra.
  - match goal with |- Rabs ?a <= _ => replace a with (fval (sub ph b) - (fval ph - fval b)) by (cbn; ring) end.
    eapply Rle_trans; [exact D5|]. replace (Rabs (fval ph) + (Rabs (fval b) + 0)) with n by (unfold n; ring). nra.
Qed.
