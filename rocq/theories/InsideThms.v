(** Proofs about the heights at which words are printed (C106): text boxes and cells. *)
From Coq Require Import QArith Lia Lqa.
From Verif Require Import GoStr GoStrFacts Num Style Class Text Instr Engine EngineFacts Layout LayoutSpec LayoutFacts Grid Table Lines LinesSpec LinesFacts LinesLink WriteSpec WriteFacts Proc DrawSpec DrawFacts ProcInv ProcFrame ProcView ProcSpec ProcThms ProcThms2 ProcThms3 CellSpec CellThms TableView TableSpec HeightFacts SizeThms PlaceSpec PlaceThms PlaceCell InsideSpec InsideFacts.
Local Open Scope nat_scope.
Local Notation Q := QArith_base.Q.

(** ** The heights of commands *)
Section Tops.
Variable h : Q.
Lemma tops_fonts : forall l y rest, only_fonts (F:=NumQ) l -> tops h y (l ++ rest) = tops h y rest.
Proof. intros l y rest H. induction H as [|c l (f & ->) _ IH]; [reflexivity|]. cbn [app tops]. exact IH. Qed.
Lemma tops_start : forall sty fonts y rest, tops h y (start_cmds (F:=NumQ) sty fonts ++ rest) = tops h y rest.
Proof. intros sty fonts y rest. unfold start_cmds. cbn [app tops]. apply tops_fonts. apply Forall_forall. intros c Hc. apply in_map_iff in Hc as (f & <- & _). exists f. reflexivity. Qed.
Definition level (y : Q) (p : option Q * bytes) : Prop := exists v, fst p = Some v /\ (v == y)%Q.
Lemma tops_plain : forall items y rest, exists l, tops h (Some y) (plain_items (F:=NumQ) items ++ rest) = l ++ tops h (Some y) rest /\ Forall (level y) l.
Proof.
  induction items as [|it items IH]; intros y rest; [exists []; split; [reflexivity|constructor]|]. cbn [plain_items flat_map]. fold (plain_items items). rewrite <- app_assoc. cbn [app tops].
  destruct (IH y rest) as (l & E & L). rewrite E. eexists (_ :: l). split; [reflexivity|]. constructor; [|exact L]. exists y. split; reflexivity.
Qed.
Lemma tops_moved : forall items xs y rest, exists l, tops h (Some y) (moved_items (F:=NumQ) items xs ++ rest) = l ++ tops h (Some y) rest /\ Forall (level y) l.
Proof.
  intros items xs. unfold moved_items. induction (combine items xs) as [|p c IH]; intros y rest; [exists []; split; [reflexivity|constructor]|]. cbn [flat_map]. rewrite <- app_assoc. cbn [app tops].
  destruct (IH y rest) as (l & E & L). rewrite E. eexists (_ :: l). split; [reflexivity|]. constructor; [|exact L]. exists y. split; reflexivity.
Qed.
(** The words of [n] lines, one below the other. *)
Definition leveled (d y : Q) (n : nat) (p : option Q * bytes) : Prop := exists k, k < n /\ level (y + inject_Z (Z.of_nat k) * d)%Q p.
Lemma leveled_first : forall d y n p, level y p -> leveled d y (S n) p.
Proof. intros d y n p (v & E & V). exists 0. split; [lia|]. exists v. split; [exact E|]. rewrite V. cbn. ring. Qed.
Lemma leveled_next : forall d y n p, leveled d (y + d)%Q n p -> leveled d y (S n) p.
Proof.
  intros d y n p (k & K & v & E & V). exists (S k). split; [lia|]. exists v. split; [exact E|]. rewrite V, Nat2Z.inj_succ, <- Z.add_1_l, inject_Z_plus. ring.
Qed.
Lemma tops_line : forall (sty : Styles NumQ) y rest n l, let d := (LineSpacing (SDim sty) * h)%Q in
  Forall (level y) l -> Forall (leveled d (y + d)%Q n) (tops h (Some (y + d)%Q) rest) ->
  Forall (leveled d y (S n)) (l ++ tops h (Some y) (line_end (F:=NumQ) sty :: rest)).
Proof.
  intros sty y rest n l d Hl Hr. apply Forall_app. split; [eapply Forall_impl; [|exact Hl]; intros p; apply leveled_first|].
  unfold line_end. cbn [tops option_map]. eapply Forall_impl; [|exact Hr]. intros p. apply leveled_next.
Qed.
Lemma tops_lines : forall (sty : Styles NumQ) width x lines y, Forall (leveled (LineSpacing (SDim sty) * h)%Q y (List.length lines)) (tops h (Some y) (flat_map (line_cmds (F:=NumQ) sty width x) lines)).
Proof.
  intros sty width x. induction lines as [|line lines IH]; intros y; [constructor|]. cbn [flat_map List.length]. unfold line_cmds at 1.
  assert (E : forall rest, tops h (Some y) (line_start (F:=NumQ) sty width x line ++ rest) = tops h (Some y) rest).
  { intros rest. unfold line_start. repeat destruct (beqb _ _); reflexivity. }
  rewrite <- !app_assoc, E. destruct (tops_plain (l_items line) y ([line_end (F:=NumQ) sty] ++ flat_map (line_cmds (F:=NumQ) sty width x) lines)) as (l & El & L). rewrite El.
  cbn [app]. apply tops_line; [exact L|apply IH].
Qed.
Lemma tops_blocks : forall (sty : Styles NumQ) x lines css y, Forall2 (block_cmds (F:=NumQ) sty x) lines css -> Forall (leveled (LineSpacing (SDim sty) * h)%Q y (List.length lines)) (tops h (Some y) (List.concat css)).
Proof.
  intros sty x lines css y H. revert y. induction H as [|line cmds lines css B _ IH]; intros y; [constructor|]. cbn [List.concat List.length]. unfold block_cmds in B.
  destruct (stretched line).
  - destruct B as (xs & _ & ->). cbn [app tops]. rewrite <- app_assoc. destruct (tops_moved (l_items line) xs y ([line_end (F:=NumQ) sty] ++ List.concat css)) as (l & E & L). rewrite E.
    cbn [app]. apply tops_line; [exact L|apply IH].
  - subst cmds. cbn [app tops]. rewrite <- app_assoc. destruct (tops_plain (l_items line) y ([line_end (F:=NumQ) sty] ++ List.concat css)) as (l & E & L). rewrite E.
    cbn [app]. apply tops_line; [exact L|apply IH].
Qed.
End Tops.

Lemma fonts_sub : forall mut blank n sty iss f, In f (text_fonts (F:=NumQ) mut blank n sty iss) -> In f (fonts_of mut sty iss).
Proof.
  intros mut blank n sty. induction iss as [|i iss IH]; intros f H; [exact H|]. cbn [text_fonts fonts_of map] in *. fold (fonts_of mut sty iss).
  destruct i; cbn [reading] in H; try (right; exact (IH _ H)); destruct (negb blank && _)%bool; try (right; exact (IH _ H)); (destruct H as [<-|H]; [left; reflexivity|right; exact (IH _ H)]).
Qed.

(** ** Texts *)
Section Texts.
Context (env : Env NumQ) {eng : Engine NumQ} (callback : cb -> M eng unit).
Variables (tw : Font NumQ -> bytes -> Q) (fh : Font NumQ -> Q).
Hypothesis K : metrics eng tw fh.
Hypothesis Hplace : places eng.
Local Notation PS := (PS NumQ eng).
Local Notation mut := (e_mut env).
Local Notation hyph := (e_hyph env).
Let Hpage : page_stable (eng:=eng) := metric_stable tw fh K.
Variable hgt : Q.

(** The number of lines a text is broken into. *)
Definition line_count (sty : Styles NumQ) iss (width : Q) (s : PS) : nat :=
  List.length (if beqb (HAlign (SAlign sty)) ($"block") then fst (textLinesHyphenated mut hyph iss (width : NumQ) sty s) else fst (textLines mut iss (width : NumQ) sty s)).
Lemma count_alike : forall sty iss w w' (s1 s2 : PS), (forall i, In i iss -> cp_free i) -> (w == w')%Q -> line_count sty iss w s1 = line_count sty iss w' s2.
Proof.
  intros sty iss w w' s1 s2 Hc Hw. unfold line_count. destruct (lines_alike mut hyph tw fh K w w' Hw iss sty s1 s2 Hc) as [-> ->]. reflexivity.
Qed.
Lemma last_height : forall fs f (s : PS), (fh f == hgt)%Q -> (forall g, In g fs -> (fh g == hgt)%Q) -> (fontHeight (ps_eng (fonts_changed fs (emitted (ChangeFont f) s))) == hgt)%Q.
Proof.
  induction fs as [|g fs IH]; intros f s Hf Hg; cbn [fonts_changed fold_left].
  - rewrite emitted_eng, (K_height _ _ _ K). exact Hf.
  - apply (IH g (set_sty (with_font g (ps_sty (emitted (ChangeFont f) s))) (emitted (ChangeFont f) s))); [exact (Hg g (or_introl eq_refl))|intros k Hk; exact (Hg k (or_intror Hk))].
Qed.
Definition tall (n : nat) (sty : Styles NumQ) : Q := (inject_Z (Z.of_nat n) * (hgt * LineSpacing (SDim sty)) - hgt * LineSpacing (SDim sty) + hgt)%Q.
Lemma count_tall : forall n sty (s : PS), (fontHeight (ps_eng s) == hgt)%Q -> (fst (lines_height n sty s) == tall n sty)%Q.
Proof. intros n sty s H. unfold lines_height. rewrite !sbind_query. cbn [sret fst]. unfold tall. cbn [sub add mul of_Z NumQ]. rewrite H. reflexivity. Qed.
Lemma plain_tall : forall sty iss (w : Q) (s : PS), (forall f, In f (SFont sty :: fonts_of mut sty iss) -> (fh f == hgt)%Q) ->
  (fst (textHeight mut iss (w : NumQ) sty s) == tall (List.length (fst (textLines mut iss (w : NumQ) sty (emitted (ChangeFont (SFont sty)) s)))) sty)%Q.
Proof.
  intros sty iss w s Hf. unfold textHeight. rewrite sbind_emit. unfold sbind at 1.
  destruct (textLines_rules mut Hpage iss (w : NumQ) sty (emitted (ChangeFont (SFont sty)) s)) as (lines & gs & E & _). rewrite E. cbn [fst].
  apply count_tall. apply last_height; [apply Hf; left; reflexivity|]. intros g Hg. apply Hf. right. exact (fonts_sub _ _ _ _ _ _ Hg).
Qed.
Lemma text_tall : forall sty iss (w : Q) (s : PS), (forall f, In f (SFont sty :: fonts_of mut sty iss) -> (fh f == hgt)%Q) ->
  (fst (textHeightFnc mut hyph sty iss (w : NumQ) sty s) == tall (line_count sty iss w (emitted (ChangeFont (SFont sty)) s)) sty)%Q.
Proof.
  intros sty iss w s Hf. unfold textHeightFnc, line_count. destruct (beqb _ _); [|apply plain_tall; exact Hf]. unfold textHeightHyphenated. rewrite sbind_emit. unfold sbind at 1.
  destruct (textLinesHyphenated_rules mut hyph Hpage iss (w : NumQ) sty (emitted (ChangeFont (SFont sty)) s)) as (lines & gs & E & _). rewrite E. cbn [fst].
  apply count_tall. apply last_height; [apply Hf; left; reflexivity|]. intros g Hg. apply Hf. right. exact (fonts_sub _ _ _ _ _ _ Hg).
Qed.
Lemma text_leveled : forall sty iss (w : Q) (s s' : PS), writeTextFnc callback mut hyph sty iss (w : NumQ) sty s = Ok tt s' ->
  exists cmds, wrote s s' cmds /\ forall y, Forall (leveled (LineSpacing (SDim sty) * hgt)%Q y (line_count sty iss w (text_state sty s))) (tops hgt (Some y) cmds).
Proof.
  intros sty iss w s s' H. destruct (fnc_written env callback Hplace Hpage _ _ _ _ _ H) as (cmds & W & T). exists cmds. split; [exact W|]. intros y.
  unfold text_written in T. unfold line_count. destruct (beqb (HAlign (SAlign sty)) ($"block")).
  - destruct T as (lines & s1 & css & E & B & ->). rewrite E, tops_start. exact (tops_blocks hgt sty _ _ _ y B).
  - destruct T as (lines & s1 & E & ->). rewrite E, tops_start. apply tops_lines.
Qed.
(** Lines below each other end where the text does. *)
Lemma leveled_inside : forall sty n y a b p, (0 <= LineSpacing (SDim sty) * hgt)%Q -> (a <= y)%Q -> (y + tall n sty <= b)%Q ->
  leveled (LineSpacing (SDim sty) * hgt)%Q y n p -> inside hgt a b p.
Proof.
  intros sty n y a b p Hd Ha Hb (k & Hk & v & E & V). unfold inside. rewrite E. unfold tall in Hb. set (d := (LineSpacing (SDim sty) * hgt)%Q) in *.
  assert (Ed : (hgt * LineSpacing (SDim sty) == d)%Q) by (unfold d; ring). rewrite Ed in Hb.
  assert (0 <= inject_Z (Z.of_nat k))%Q by (rewrite <- (Zle_Qle 0); lia).
  assert (0 <= inject_Z (Z.of_nat (n - 1 - k)))%Q by (rewrite <- (Zle_Qle 0); lia).
  assert (En : (inject_Z (Z.of_nat n) == inject_Z (Z.of_nat k) + inject_Z (Z.of_nat (n - 1 - k)) + 1)%Q).
  { change 1%Q with (inject_Z 1). rewrite <- !inject_Z_plus. apply inject_Z_injective. lia. }
  rewrite En in Hb. rewrite V. set (i := inject_Z (Z.of_nat k)) in *. set (j := inject_Z (Z.of_nat (n - 1 - k))) in *.
  assert (0 <= i * d)%Q by (apply Qmult_le_0_compat; assumption). assert (0 <= j * d)%Q by (apply Qmult_le_0_compat; assumption). split; [lra|].
  assert (Ex : ((i + j + 1) * d - d + hgt == i * d + j * d + hgt)%Q) by ring. rewrite Ex in Hb. lra.
Qed.

(** ** Text boxes *)
Lemma box_inside : forall st iss pa (s s' : PS), let sty := mut st (ps_sty s) in let pad := Padding (SBox sty) in
  (Height (SDim sty) <= 0)%Q -> (forall i, In i iss -> cp_free i) -> (0 <= LineSpacing (SDim sty) * hgt)%Q ->
  (forall f, In f (SFont sty :: fonts_of mut sty iss) -> (fh f == hgt)%Q) ->
  renderTextBox env callback st iss pa s = Ok tt s' ->
  exists before frame text after x0 y0 x1 y1, wrote s s' (before ++ frame ++ text ++ after) /\
    silent before /\ draws_box x0 y0 x1 y1 sty frame /\ silent after /\
    ((0 <= y0 + QTop pad)%Q -> Forall (inside hgt (y0 + QTop pad)%Q (y1 - QBottom pad)%Q) (tops hgt None text)).
Proof.
  intros st iss pa s s' sty pad Hown Hcp Hd Hfs H. unfold renderTextBox in H. cbv zeta in H.
  apply bind_ok in H as (y & sa & H1 & H). apply lift_ok in H1. injection H1 as <- <-.
  apply bind_ok in H as (h & s1 & H1 & H). apply lift_ok in H1. apply height_measured in H1.
  apply bind_ok in H as (xy & sa & H2 & H). apply lift_ok in H2. injection H2 as <- <-.
  apply bind_ok in H as (m & sa & H2 & H). apply lift_ok in H2. injection H2 as <- <-.
  apply bind_ok in H as (ph & sa & H2 & H). apply lift_ok in H2. injection H2 as <- <-.
  apply bind_ok in H as (pv & sa & H2 & H). apply lift_ok in H2. injection H2 as <- <-.
  apply bind_ok in H as ([px py] & s2 & H2 & H).
  assert (B : exists br, wrote s1 s2 br /\ silent br).
  { destruct (negb (ps_prevent s1) && _)%bool.
    - apply bind_ok in H2 as ([] & sb & H2 & H3). apply lift_ok in H3. injection H3 as _ <-. exists [AddPage]. split; [exact (wrote_command _ _ _ _ _ H2)|]. intros t [E|[]]. discriminate E.
    - injection H2 as _ <-. exists []. split; [apply wrote_nil|intros t []]. }
  destruct B as (br & Wb & Sb).
  apply bind_ok in H as ([] & sa & H3 & H). apply lift_ok in H3. rewrite drawBox_run in H3. injection H3 as <-.
  apply bind_ok in H as ([] & sb & H4 & H). apply wrote_lift_emit in H4 as [Eb W4].
  apply bind_ok in H as ([] & s3 & H5 & H). apply wrote_lift_emit in H5 as [E3 W5].
  apply bind_ok in H as ([] & s4 & H6 & H). apply bind_ok in H as ([] & s5 & H7 & H). apply wrote_lift_emit in H7 as [E5 W7]. apply lift_reset in H.
  fold sty in H1, H6. fold pad in H6. set (width := box_text_width pa sty) in *.
  destruct (box_height_fonts env Hplace Hpage _ _ _ _ _ _ H1) as (ms & Wm & Om & _).
  set (x0 := (px + OffsetX (SDim sty))%Q). set (y0 := (py + OffsetY (SDim sty))%Q).
  set (x1 := (x0 + width + QLeft pad + QRight pad)%Q). set (y1 := (y0 + h + QTop pad + QBottom pad)%Q).
  assert (T : exists text, wrote s3 s4 text /\ Forall (inside hgt (y0 + QTop pad)%Q (y0 + QTop pad + h)%Q) (tops hgt (Some (y0 + QTop pad)%Q) text)).
  { destruct iss as [|i iss].
    - injection H6 as <-. exists []. split; [apply wrote_nil|constructor].
    - destruct (text_leveled _ _ _ _ _ H6) as (text & Wt & L). exists text. split; [exact Wt|]. eapply Forall_impl; [|exact (L (y0 + QTop pad)%Q)]. intros p.
      apply leveled_inside; [exact Hd|apply Qle_refl|]. unfold box_height in H1. change (@leb NumQ (Height (SDim sty)) (@zero NumQ)) with (Qle_bool (Height (SDim sty)) 0) in H1. rewrite (proj2 (Qle_bool_iff _ _) Hown) in H1.
      assert (Th := text_tall sty (i :: iss) width s Hfs). rewrite H1 in Th. cbn [fst] in Th.
      rewrite (count_alike sty (i :: iss) width width (text_state sty s3) (emitted (ChangeFont (SFont sty)) s) Hcp ltac:(reflexivity)), <- Th. apply Qle_refl. }
  destruct T as (text & W6 & Tw).
  exists (ms ++ br), (map Simple (box_cmds (F:=NumQ) x0 y0 x1 y1 sty)), ([Simple (SetY (F:=NumQ) (y0 + QTop pad)%Q); Simple (SetX (F:=NumQ) (x0 + QLeft pad)%Q)] ++ text), ([Simple (SetY (F:=NumQ) y1)] ++ reset_cmds s'), x0, y0, x1, y1.
  split; [|split; [|split; [|split]]].
  - rewrite <- !app_assoc. eapply wrote_app; [exact Wm|]. eapply wrote_app; [exact Wb|]. eapply wrote_app; [apply wrote_emits|]. eapply wrote_cons; [exact W4|]. eapply wrote_cons; [exact W5|].
    eapply wrote_app; [exact W6|]. eapply wrote_cons; [exact W7|]. rewrite H. unfold reset_cmds. rewrite !reset_sty. apply wrote_reset.
  - apply silent_app; [apply silent_fonts; exact Om|exact Sb].
  - intros p Hp. apply box_paint. exact Hp.
  - apply (silent_app [Simple (SetY (F:=NumQ) y1)]); [apply silent_one|]. unfold reset_cmds. exact (silent_simple [_; _]).
  - intros Hy. cbn [app tops]. rewrite (proj2 (Qle_bool_iff _ _) Hy). eapply Forall_impl; [|exact Tw]. intros p. unfold inside. destruct (fst p); [|intros []]. intros [A1 A2]. split; [exact A1|].
    assert (Ey : (y1 - QBottom pad == y0 + QTop pad + h)%Q) by (unfold y1; ring). rewrite Ey. exact A2.
Qed.

(** ** Cells *)
Lemma measure_value : forall h cs (s : PS) c th, In (c, th) (fst (measure env h cs s)) -> exists s1 : PS,
  th = fst (textHeightFnc mut hyph (c_sty (deref h c)) (c_iss (deref h c)) (text_room h c) (c_sty (deref h c)) s1).
Proof.
  intros h. induction cs as [|x cs IH]; intros s c th H; [destruct H|]. cbn [measure] in H. destruct (ltb _ _); [exact (IH _ _ _ H)|]. unfold sbind in H.
  destruct (textHeightFnc _ _ _ _ _ _ s) as [v s1] eqn:E1. destruct (measure env h cs s1) as [l s2] eqn:E2. cbn [fst sret] in H.
  destruct H as [H|H]; [|apply (IH s1); rewrite E2; exact H]. injection H as <- <-. exists s. rewrite E1. reflexivity.
Qed.
Lemma q_below : forall a b th v : Q, (th <= b - a)%Q -> (v == th)%Q -> (a <= a + (b - a - th) / 2)%Q /\ (a + (b - a - th) / 2 + v <= b)%Q /\ (a <= a + (b - a - th))%Q /\ (a + (b - a - th) + v <= b)%Q.
Proof.
  intros a b th v H E. assert (0 <= (b - a - th) / 2)%Q by (apply Qle_shift_div_l; lra).
  assert ((b - a - th) / 2 + (b - a - th) / 2 == b - a - th)%Q by field. repeat split; lra.
Qed.
Lemma cell_inside : forall st xrows (s0 s0' : PS) h t, transformTable env st xrows s0 = (Some (h, t), s0') ->
  forall c, In c (flat_map r_cells (t_rows t)) -> authored h c = true -> forall X Y (s s' : PS),
  let x := deref h c in let sty := c_sty x in let pad := Padding (SBox sty) in let W := fst (cell_dim h c) : Q in let V := snd (cell_dim h c) : Q in
  (Height (SDim sty) <= 0)%Q -> (forall i, In i (c_iss x) -> text_only i = true /\ cp_free i) -> (0 <= LineSpacing (SDim sty) * hgt)%Q ->
  (forall f, In f (SFont sty :: fonts_of mut sty (c_iss x)) -> (fh f == hgt)%Q) ->
  (HAlign (SAlign sty) = $"block" -> ~ In (VAlign (SAlign sty)) [$"middle"; $"bottom"]) ->
  (0 <= Y + QTop pad)%Q ->
  renderCell env callback (mkPA (F:=NumQ) X Y (X + W)%Q (Y + V)%Q) x s = Ok tt s' ->
  exists cmds, wrote s s' cmds /\ cell_printed hgt X Y (X + W)%Q (Y + V)%Q sty cmds.
Proof.
  intros st xrows s0 s0' h t HT c Hc Ha X Y s s' x sty pad W V Hown Hi Hd Hfs Hal Hy H.
  destruct (all_measured env s0 h t c Hc Ha Hown) as (th & Hm). assert (Ht := tall_enough env st xrows s0 s0' h t HT c th Hm). fold x sty pad in Ht. fold V in Ht.
  destruct (measure_value _ _ _ _ _ Hm) as (sm0 & Em). fold x sty in Em.
  assert (Hcp : forall i, In i (c_iss x) -> cp_free i) by (intros i Hin; exact (proj2 (Hi i Hin))).
  unfold renderCell in H. cbv zeta in H. fold sty in H. fold pad in H.
  apply bind_ok in H as ([] & s1 & H1 & H). apply lift_ok in H1. rewrite drawBox_run in H1. apply pair_equal_spec in H1 as [_ <-].
  apply bind_ok in H as ([] & s2 & H2 & H). apply bind_ok in H as ([] & s3 & H3 & H). apply wrote_lift_emit in H3 as [E3 W3].
  apply (no_children env callback _ _ _ _ _ (fun i Hin => proj1 (Hi i Hin))) in H. subst s'.
  assert (T : exists text, wrote (emits (box_cmds (F:=NumQ) X Y (X + W)%Q (Y + V)%Q sty) s) s2 text /\ Forall (inside hgt (Y + QTop pad)%Q (Y + V - QBottom pad)%Q) (tops hgt None text)).
  { destruct (c_iss x) as [|i iss] eqn:Ei.
    - injection H2 as <-. exists []. split; [apply wrote_nil|constructor].
    - rewrite <- Ei in *. apply bind_ok in H2 as (tp & sm & H1 & H2). apply lift_ok in H1. destruct (height_fonts env Hplace Hpage _ _ _ _ _ _ H1) as (ms & Wm & Om & _).
      apply bind_ok in H2 as ([] & sa & Hdr & H2). apply (lift_dropped (eng:=eng)) in Hdr as [Ea Wa].
      apply bind_ok in H2 as ([] & sb & Hb & H2). apply wrote_lift_emit in Hb as [Eb Wb].
      destruct (text_leveled _ _ _ _ _ H2) as (cmds & Wr & L).
      eexists. split; [eapply wrote_app; [exact Wm|eapply wrote_cons; [exact Wa|eapply wrote_cons; [exact Wb|exact Wr]]]|].
      rewrite (tops_fonts _ _ _ _ Om). cbn [tops]. set (a := (Y + QTop pad)%Q) in *. set (b := (Y + V - QBottom pad)%Q) in *.
      set (y := dropped _ _ _). set (n := line_count _ _ _ _) in L.
      assert (En : (th == tall n sty)%Q).
      { rewrite Em, text_tall by exact Hfs. rewrite (count_alike sty (c_iss x) (text_room h c) (sub (sub (pa_width (mkPA (F:=NumQ) X Y (X + W)%Q (Y + V)%Q)) (QLeft pad)) (QRight pad)) _ (text_state sty sb) Hcp); [reflexivity|].
        unfold text_room, pa_width. cbv zeta. fold x sty pad. change (fst (cell_dim h c)) with W. cbn [pa_x0 pa_x1 sub add NumQ]. ring. }
      assert (Y2 : (a <= y)%Q /\ (y + tall n sty <= b)%Q).
      { unfold y, dropped. cbn [pa_y0 pa_y1 with_padding pa_height pa_width]. assert (Ea' : (tall n sty == th)%Q) by (rewrite En; reflexivity).
        assert (Hab : (th <= b - a)%Q) by (unfold a, b; lra).
        assert (Plain : beqb (HAlign (SAlign sty)) ($"block") = false -> (tp == th)%Q).
        { intros Hb. assert (P := plain_tall sty (c_iss x) (pa_width (with_padding pad (mkPA (F:=NumQ) X Y (X + W)%Q (Y + V)%Q))) (emits (box_cmds (F:=NumQ) X Y (X + W)%Q (Y + V)%Q sty) s) Hfs). cbn [pa_x0 pa_y0 pa_x1 pa_y1] in H1. rewrite H1 in P. cbn [fst] in P.
          rewrite P, En. unfold n, line_count. rewrite Hb.
          match goal with |- (tall (List.length (fst (textLines _ _ ?w1 _ ?q1))) _ == tall (List.length (fst (textLines _ _ ?w2 _ ?q2))) _)%Q =>
            rewrite (proj1 (lines_alike mut hyph tw fh K w1 w2 ltac:(unfold pa_width, with_padding; cbn; ring) (c_iss x) sty q1 q2 Hcp)) end. reflexivity. }
        assert (Mid : beqb (HAlign (SAlign sty)) ($"block") = true -> beqb (VAlign (SAlign sty)) ($"middle") = false /\ beqb (VAlign (SAlign sty)) ($"bottom") = false).
        { intros Hb. apply beqb_eq in Hb. specialize (Hal Hb). split; apply not_true_iff_false; intro E; apply beqb_eq in E; apply Hal; rewrite E; cbn; auto. }
        destruct (beqb (HAlign (SAlign sty)) ($"block")).
        - destruct (Mid eq_refl) as [-> ->]. change (a <= a /\ a + tall n sty <= b)%Q. split; [lra|rewrite Ea'; lra].
        - assert (Ep := Plain eq_refl). destruct (q_below a b tp (tall n sty) ltac:(rewrite Ep; exact Hab) ltac:(rewrite Ep; exact Ea')) as (B1 & B2 & B3 & B4).
          destruct (beqb _ ($"middle")); [exact (conj B1 B2)|]. destruct (beqb _ ($"bottom")); [exact (conj B3 B4)|]. change (a <= a /\ a + tall n sty <= b)%Q. split; [lra|rewrite Ea'; lra]. }
      destruct Y2 as [Y2 Y3]. replace (Qle_bool 0 y) with true by (symmetry; apply Qle_bool_iff; eapply Qle_trans; [exact Hy|exact Y2]).
      eapply Forall_impl; [|exact (L y)]. intros p. apply leveled_inside; assumption. }
  destruct T as (text & Wt & Tw). eexists. split; [eapply wrote_app; [apply wrote_emits|eapply wrote_app; [exact Wt|exact W3]]|].
  eexists _, text, _. split; [reflexivity|]. split; [intros p Hp; apply box_paint; exact Hp|]. split; [apply silent_one|exact Tw].
Qed.
(** ** Rows *)
Lemma cells_inside : forall st xrows (s0 s0' : PS) h t, transformTable env st xrows s0 = (Some (h, t), s0') ->
  forall cs X Y (s s' : PS), (forall c, In c cs -> In c (flat_map r_cells (t_rows t))) ->
  (forall c, In c cs -> authored h c = true -> plain_cell mut fh hgt (deref h c) /\ (0 <= Y + QTop (Padding (SBox (c_sty (deref h c)))))%Q) ->
  render_cells env callback h cs (X : NumQ) (Y : NumQ) s = Ok tt s' ->
  exists parts, wrote s s' (List.concat parts) /\
    Forall2 (fun c part => exists x, cell_printed hgt x Y (x + fst (cell_dim h c))%Q (Y + snd (cell_dim h c))%Q (c_sty (deref h c)) part) (filter (authored h) cs) parts.
Proof.
  intros st xrows s0 s0' h t HT. induction cs as [|c cs IH]; intros X Y s s' Hin Hp H; cbn [render_cells] in H.
  { injection H as <-. exists []. split; [apply wrote_nil|constructor]. }
  apply bind_ok in H as ([] & s1 & H1 & H).
  destruct (IH _ Y s1 s' (fun d Hd => Hin d (or_intror Hd)) (fun d Hd => Hp d (or_intror Hd)) H) as (parts & W & P).
  cbn [filter]. assert (Ea : (match c_spannedBy (deref h c) with Some _ => true | None => false end || c_zero (deref h c))%bool = negb (authored h c)).
  { unfold authored. destruct (c_spannedBy (deref h c)); [reflexivity|]. cbn. rewrite negb_involutive. reflexivity. }
  rewrite Ea in H1. destruct (authored h c) eqn:E; cbn [negb] in H1.
  - destruct (Hp c (or_introl eq_refl) E) as ((P1 & P2 & P3 & P4 & P5) & P6). destruct (cell_dim h c) as [cw ch] eqn:Ed.
    assert (K1 := cell_inside st xrows s0 s0' h t HT c (Hin c (or_introl eq_refl)) E X Y s s1 P1 P2 P3 P4 P5 P6). cbv zeta in K1. rewrite Ed in K1. cbn [fst snd] in K1.
    destruct (K1 H1) as (cmds & W1 & C1). exists (cmds :: parts). split; [cbn [List.concat]; exact (wrote_app _ _ _ _ _ W1 W)|].
    constructor; [|exact P]. exists X. rewrite Ed. exact C1.
  - injection H1 as <-. exists parts. split; [exact W|exact P].
Qed.
Lemma row_inside : forall st xrows (s0 s0' : PS) h t, transformTable env st xrows s0 = (Some (h, t), s0') ->
  forall row, In row (t_rows t) -> forall X Y Y' (s s' : PS),
  (forall c, In c (r_cells row) -> authored h c = true -> plain_cell mut fh hgt (deref h c) /\ (0 <= Y + QTop (Padding (SBox (c_sty (deref h c)))))%Q) ->
  renderRow env callback h (X : NumQ) (Y : NumQ) row s = Ok Y' s' ->
  exists parts, wrote s s' (List.concat parts ++ [Simple (SetX (F:=NumQ) X)]) /\
    Forall2 (fun c part => exists x, cell_printed hgt x Y (x + fst (cell_dim h c))%Q (Y + snd (cell_dim h c))%Q (c_sty (deref h c)) part) (filter (authored h) (r_cells row)) parts.
Proof.
  intros st xrows s0 s0' h t HT row Hr X Y Y' s s' Hp H. unfold renderRow in H.
  apply bind_ok in H as ([] & s1 & H1 & H). apply bind_ok in H as ([] & s2 & H2 & H). injection H as _ <-. apply wrote_lift_emit in H2 as [_ W2].
  destruct (cells_inside st xrows s0 s0' h t HT _ X Y s s1 (fun c Hc => proj2 (in_flat_map _ _ _) (ex_intro _ row (conj Hr Hc))) Hp H1) as (parts & W & P).
  exists parts. split; [exact (wrote_app _ _ _ _ _ W W2)|exact P].
Qed.
End Texts.
