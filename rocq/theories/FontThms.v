(** Proofs about fonts and the creation of the engine *)
From Verif Require Import GoStr GoStrFacts Num Path PathSpec PathFacts Font FontSpec.
Require Import Lia.

Theorem each_outcome {S E} (do : Descriptor -> S -> S * option E) r s s' err :
  each do r s = (s', err) <-> outcome do (r_fonts r) s s' err.
Proof.
  unfold each. generalize (r_fonts r) as l. intro l. revert s. induction l as [|fd l IH]; intro s.
  - cbn. split.
    + intro H. apply pair_equal_spec in H. destruct H as [<- <-]. constructor.
    + destruct err as [e|]; cbn.
      * intros (done & a & todo & s1 & H & _). destruct done; discriminate.
      * inversion 1. reflexivity.
  - cbn [each_font]. destruct (do fd s) as [s1 [e1|]] eqn:D.
    + split.
      * intro H. apply pair_equal_spec in H. destruct H as [<- <-]. exists [], fd, l, s. repeat split; [constructor|exact D].
      * destruct err as [e|]; cbn.
        -- intros (done & a & todo & s2 & H & A & X). destruct done as [|b done].
           ++ injection H as -> ->. inversion A; subst. rewrite D in X. exact X.
           ++ injection H as <- ->. inversion A; subst. congruence.
        -- inversion 1; subst. congruence.
    + rewrite IH. destruct err as [e|]; cbn.
      * split.
        -- intros (done & a & todo & s2 & -> & A & X). exists (fd :: done), a, todo, s2. split; [reflexivity|]. split; [|exact X].
           econstructor; eassumption.
        -- intros (done & a & todo & s2 & H & A & X). destruct done as [|b done].
           ++ injection H as -> ->. inversion A; subst. congruence.
           ++ injection H as <- ->. inversion A; subst. rewrite D in *. exists done, a, todo, s2.
              split; [reflexivity|]. split; [|exact X]. congruence.
      * split; [intro A; econstructor; eassumption|]. inversion 1; subst. congruence.
Qed.
Theorem registered fds r : r_fonts (fold_left (fun r fd => register fd r) fds r) = r_fonts r ++ fds /\
  r_mono (fold_left (fun r fd => register fd r) fds r) = r_mono r.
Proof.
  revert r. induction fds as [|fd fds IH]; intro r; [cbn; rewrite app_nil_r; split; reflexivity|].
  cbn [fold_left]. destruct (IH (register fd r)) as [-> ->]. cbn. rewrite <- app_assoc. split; reflexivity.
Qed.

(** filepath.Dir of a normal absolute path *)
Lemma after_slash_app e : noslash e -> forall r acc, after_slash_rev (rev e ++ slash :: r) acc = (slash :: r, e ++ acc).
Proof.
  intro N. induction e as [|c e IH] using rev_ind; intros r acc; [reflexivity|].
  apply Forall_app in N. destruct N as [N C]. rewrite rev_app_distr. cbn [rev app].
  cbn [after_slash_rev]. inversion C as [|? ? C1 _]; subst. rewrite C1, IH by exact N. rewrite <- app_assoc. reflexivity.
Qed.
Lemma goto_trailing p : goto [] (elements (p ++ [slash])) = goto [] (elements p).
Proof.
  assert (E : elements (p ++ [slash]) = elements p ++ [[]]).
  { induction p as [|c p IH]; [reflexivity|]. cbn [app]. destruct (is_slash c) eqn:C.
    - apply Ascii.eqb_eq in C. subst c. rewrite !elements_slash, IH. reflexivity.
    - rewrite !elements_cons by exact C. rewrite IH. pose proof (elements_ne p) as N. destruct (elements p); [congruence|reflexivity]. }
  rewrite E, goto_app. reflexivity.
Qed.
Lemma dir_names ns : Forall name ns ->
  dir (slash :: str_join ($"/") ns) = Some (slash :: str_join ($"/") (removelast ns)).
Proof.
  intro F. destruct ns as [|a0 ns0] eqn:E0; [reflexivity|]. rewrite <- E0 in *.
  destruct (@exists_last _ ns ltac:(subst; discriminate)) as (ns1 & e & ->).
  rewrite removelast_last. apply Forall_app in F. destruct F as [F Fe]. inversion Fe as [|? ? Ne _]; subst.
  assert (D : exists o, slash :: str_join ($"/") (ns1 ++ [e]) = (o ++ [slash]) ++ e /\ goto [] (elements (o ++ [slash])) = ns1).
  { destruct ns1 as [|b ns1].
    - exists []. split; reflexivity.
    - exists (slash :: str_join ($"/") (b :: ns1)). split.
      + rewrite join_snoc by discriminate. rewrite <- app_assoc. reflexivity.
      + rewrite goto_trailing. apply (leads_names [] (b :: ns1) F). }
  destruct D as (o & D & G). unfold dir. rewrite D, rev_app_distr.
  rewrite rev_app_distr. cbn [rev app]. rewrite after_slash_app by (apply name_noslash, Ne).
  cbn [fst]. replace (rev (slash :: rev o)) with (o ++ [slash]) by (cbn [rev]; rewrite rev_involutive; reflexivity).
  assert (A : is_abs (o ++ [slash]) = true).
  { destruct o as [|c o]; [reflexivity|]. cbn [app] in D. injection D as Dc _. cbn [app is_abs]. rewrite <- Dc. reflexivity. }
  destruct (clean_abs _ A) as [C _]. rewrite C, G. reflexivity.
Qed.

Lemma abs_path_is wd file : (absolute file \/ exists d, wd = Some d /\ absolute d) ->
  exists ns, abs_path wd file = Some (slash :: str_join ($"/") ns) /\ Forall name ns /\
    forall any, leads (leads any (match wd with Some d => d | None => [] end)) file = ns.
Proof.
  intro H. unfold abs_path. destruct (is_abs file) eqn:A.
  - destruct (clean_abs file A) as [C F]. rewrite C. exists (goto [] (elements file)). split; [reflexivity|]. split; [exact F|].
    intro any. apply leads_abs, A.
  - destruct H as [H|(d & -> & Hd)]; [apply absolute_is in H; congruence|].
    apply absolute_is in Hd. destruct (join_leads d file A) as (q & J & A1 & _ & L & Nq).
    assert (d <> []) by (intros ->; discriminate). rewrite J.
    destruct Nq as [->|Nq]; [specialize (A1 H); rewrite Hd in A1; discriminate|].
    rewrite Hd in Nq. destruct Nq as (ns & -> & F). exists ns. split; [reflexivity|]. split; [exact F|].
    intro any. rewrite <- L. apply leads_names, F.
Qed.

Theorem load_registry_is wd file defs : (absolute file \/ exists d, wd = Some d /\ absolute d) ->
  exists r, load_registry (Some defs) wd file = Ok r /\ r_mono r = ds_mono defs /\
    Forall2 (fun fd p => describes (removelast (leads (leads [] (match wd with Some d => d | None => [] end)) file)) fd (fst p) (snd p))
      (r_fonts r) (pairs defs).
Proof.
  intro H. destruct (abs_path_is wd file H) as (ns & A & F & L).
  unfold load_registry. rewrite A, dir_names by exact F. rewrite L.
  set (dirp := slash :: str_join ($"/") (removelast ns)).
  assert (Fr : Forall name (removelast ns)).
  { destruct ns as [|a ns]; [constructor|]. rewrite (app_removelast_last (l := a :: ns) []) in F by discriminate. apply Forall_app in F. tauto. }
  set (res := fun f => if is_abs f then f else match join2 dirp f with Some p => p | None => [] end).
  assert (R : forall nm sty, describes (removelast ns) (mkFD (df_name nm) (sd_style sty) (res (sd_path sty))) nm sty).
  { intros nm sty. unfold describes. cbn [fd_name fd_style fd_path]. split; [reflexivity|]. split; [reflexivity|]. unfold res.
    destruct (is_abs (sd_path sty)) eqn:As.
    - apply absolute_is in As. split; [exact As|]. split; [|split; [reflexivity|tauto]].
      apply absolute_is in As. intro any. rewrite !leads_abs by exact As. reflexivity.
    - destruct (join_leads dirp (sd_path sty) As) as (q & -> & A1 & _ & Lq & Nq).
      specialize (A1 ltac:(discriminate)). change (is_abs dirp) with true in *. cbv iota in Nq. split; [apply absolute_is, A1|].
      split; [|split].
      + intro any. rewrite Lq. unfold dirp. rewrite leads_names by exact Fr. reflexivity.
      + rewrite absolute_is. congruence.
      + intros _. destruct Nq as [->|Nq]; [discriminate|exact Nq]. }
  eexists. split; [reflexivity|].
  assert (G1 : forall fnt stys reg, let r := fold_left (fun reg sty => register (mkFD (df_name fnt) (sd_style sty) (res (sd_path sty))) reg) stys reg in
    r_mono r = r_mono reg /\ exists l, r_fonts r = r_fonts reg ++ l /\ Forall2 (fun fd p => describes (removelast ns) fd (fst p) (snd p)) l (map (pair fnt) stys)).
  { intros fnt stys. induction stys as [|sty stys IH]; intros reg.
    - cbn. split; [reflexivity|]. exists []. rewrite app_nil_r. split; [reflexivity|constructor].
    - cbn [fold_left map]. cbv zeta. destruct (IH (register (mkFD (df_name fnt) (sd_style sty) (res (sd_path sty))) reg)) as [-> (l & -> & F2)].
      split; [reflexivity|]. eexists (_ :: l). split; [cbn [register r_fonts]; rewrite <- app_assoc; reflexivity|].
      constructor; [apply R|exact F2]. }
  assert (G2 : forall fnts reg, let r := fold_left (fun reg fnt => fold_left (fun reg sty => register (mkFD (df_name fnt) (sd_style sty) (res (sd_path sty))) reg) (df_styles fnt) reg) fnts reg in
    r_mono r = r_mono reg /\ exists l, r_fonts r = r_fonts reg ++ l /\ Forall2 (fun fd p => describes (removelast ns) fd (fst p) (snd p)) l (flat_map (fun fnt => map (pair fnt) (df_styles fnt)) fnts)).
  { induction fnts as [|fnt fnts IH]; intro reg.
    - cbn. split; [reflexivity|]. exists []. rewrite app_nil_r. split; [reflexivity|constructor].
    - cbn [fold_left flat_map]. cbv zeta.
      destruct (G1 fnt (df_styles fnt) reg) as [M1 (l1 & E1 & F1)].
      destruct (IH (fold_left (fun reg sty => register (mkFD (df_name fnt) (sd_style sty) (res (sd_path sty))) reg) (df_styles fnt) reg)) as [M2 (l2 & E2 & F2)].
      split; [rewrite M2, M1; reflexivity|]. exists (l1 ++ l2). split; [rewrite E2, E1, app_assoc; reflexivity|].
      apply Forall2_app; assumption. }
  destruct (G2 (ds_fonts defs) (mkReg (ds_mono defs) [])) as [M (l & El & Fl)]. split; [exact M|].
  exact (eq_ind_r (fun x => Forall2 _ x _) Fl El).
Qed.

Lemma Ok_inj {A} (a b : A) : Ok a = Ok b -> a = b.
Proof. congruence. Qed.
Section Fpdf.
Context {F : Num} (read : bytes -> option bytes) (bad : list (call F) -> bool).
Lemma all_added fds : forall before calls',
  all_succeed (init_font read bad) fds (rev before) calls' <->
  exists calls, calls' = rev (before ++ calls) /\ adds_fonts read bad before fds calls.
Proof.
  induction fds as [|fd fds IH]; intros before calls'.
  - split.
    + inversion 1; subst. exists []. rewrite app_nil_r. split; [reflexivity|]. split; [constructor|].
      intros done todo H1 H2. destruct done; [congruence|discriminate].
    + intros (calls & -> & [F2 _]). inversion F2; subst. rewrite app_nil_r. constructor.
  - split.
    + inversion 1 as [|? ? ? s1 ? D A]; subst. unfold init_font in D. destruct (read (fd_path fd)) as [bs|] eqn:R; [|discriminate].
      apply pair_equal_spec in D. destruct D as [D1 D2].
      assert (E : s1 = rev (before ++ [font_call fd bs])) by (rewrite <- D1, rev_app_distr; reflexivity).
      rewrite E in A. apply IH in A. destruct A as (calls & -> & [F2 B]). exists (font_call fd bs :: calls).
      split; [rewrite <- app_assoc; reflexivity|]. split; [constructor; [exists bs; split; [exact R|reflexivity]|exact F2]|].
      intros done todo H1 H2. destruct done as [|c done]; [congruence|]. injection H1 as <- H1.
      destruct done as [|c2 done].
      * rewrite <- E, <- D1. destruct (bad _) eqn:Bd; [discriminate D2|reflexivity].
      * change (font_call fd bs :: c2 :: done) with ([font_call fd bs] ++ c2 :: done). rewrite app_assoc. apply (B _ todo H1). discriminate.
    + intros (calls & -> & [F2 B]). inversion F2 as [|? c ? cs (bs & R & ->) F3]; subst.
      econstructor; [|apply IH; exists cs; split; [|split; [exact F3|]]].
      * unfold init_font. rewrite R. cbv zeta. pose proof (B [font_call fd bs] cs eq_refl ltac:(discriminate)) as B1.
        rewrite rev_app_distr in B1. cbn [rev app] in B1. change (AddFont _ _ _ :: rev before) with (font_call fd bs :: rev before).
        rewrite B1. apply pair_equal_spec. split; [|reflexivity]. symmetry. apply (rev_app_distr before [font_call fd bs]).
      * rewrite <- app_assoc. reflexivity.
      * intros done todo H1 H2. rewrite <- app_assoc. apply (B (font_call fd bs :: done) todo); [rewrite H1; reflexivity|discriminate].
Qed.
Lemma paper_is f : fpdf_format f = paper f.
Proof.
  unfold fpdf_format, paper. cbn [find fst].
  destruct (beqb_spec f ($"a3")); [reflexivity|]. destruct (beqb_spec f ($"a4")) as [->|]; [reflexivity|].
  destruct (beqb f ($"a5")); [reflexivity|]. destruct (beqb f ($"letter")); [reflexivity|]. destruct (beqb f ($"legal")); reflexivity.
Qed.
Theorem new_fpdf_iff r o f left top right bottom mono calls :
  new_fpdf read bad r o f left top right bottom = Ok (mono, calls) <->
  mono = (if beqb (r_mono r) ($"") then $"Courier" else r_mono r) /\
  exists fonts, let new := New (if beqb o ($"portrait") then $"P" else if beqb o ($"landscape") then $"L" else $"") ($"mm") (paper f) ($"") in
    adds_fonts read bad [new] (r_fonts r) fonts /\
    rev calls = new :: fonts ++ [SetAutoPageBreak true bottom; SetMargins left top right].
Proof.
  unfold new_fpdf, init_fonts. rewrite paper_is. set (new := New _ _ _ _). cbv zeta.
  change (New (if beqb o ($"portrait") then $"P" else if beqb o ($"landscape") then $"L" else $"") ($"mm") (paper f) ($"")) with new.
  assert (Mo : (match r_mono r with [] => $"Courier" | m => m end) = if beqb (r_mono r) ($"") then $"Courier" else r_mono r) by (destruct (r_mono r); reflexivity).
  rewrite Mo. destruct (each (init_font read bad) r [new]) as [pdf [e|]] eqn:E.
  - split; [discriminate|]. intros (_ & fonts & A & _). exfalso.
    assert (H : all_succeed (init_font read bad) (r_fonts r) (rev [new]) (rev ([new] ++ fonts))) by (apply all_added; exists fonts; split; [reflexivity|exact A]).
    pose proof (proj2 (each_outcome (init_font read bad) r (rev [new]) (rev ([new] ++ fonts)) None) H) as X.
    cbn [rev app] in X. cbn [rev app] in E. rewrite E in X. discriminate X.
  - apply each_outcome in E. cbn [outcome] in E. change [new] with (rev [new]) in E. apply all_added in E. destruct E as (fonts & -> & A).
    split.
    + intro H. apply Ok_inj in H. apply pair_equal_spec in H. destruct H as [H1 H2]. symmetry in H1, H2. subst mono calls.
      split; [reflexivity|]. exists fonts. split; [exact A|].
      cbn [rev]. rewrite rev_involutive, <- !app_assoc. reflexivity.
    + intros (-> & fonts' & A' & C). f_equal. apply pair_equal_spec. split; [reflexivity|].
      assert (fonts' = fonts) as ->.
      { destruct A as [F2 _], A' as [F2' _]. clear - F2 F2'. revert fonts' F2'. induction F2 as [|fd c fds cs (b & R & ->) F2 IH]; intros fonts' F2'; inversion F2' as [|? ? ? ? (b' & R' & ->) F3]; subst; [reflexivity|].
        f_equal; [congruence|apply IH, F3]. }
      rewrite <- (rev_involutive calls), C. change (new :: fonts ++ [SetAutoPageBreak true bottom; SetMargins left top right]) with (([new] ++ fonts) ++ [SetAutoPageBreak true bottom; SetMargins left top right]).
      rewrite (rev_app_distr ([new] ++ fonts)). reflexivity.
Qed.
End Fpdf.

Require Import Permutation.
Theorem asked s w deco st : asks s w st ->
  Permutation (fpdf_font_style s w deco) (letters_of st ++ if beqb deco ($"underline") then $"U" else $"").
Proof.
  assert (N : forall a b : bytes, a <> b -> beqb a b = false) by (intros a b H; destruct (beqb_spec a b); congruence).
  unfold fpdf_font_style. inversion 1; subst; repeat match goal with H : ?a <> ?b |- context [beqb ?a ?b] => rewrite (N a b H) end; rewrite ?beqb_refl.
  - reflexivity.
  - reflexivity.
  - reflexivity.
  - change (letters_of ($"bold+italic")) with ($"BI"). destruct (beqb deco ($"underline")); cbn; constructor.
Qed.
Theorem always_asks s w : exists st, asks s w st.
Proof.
  destruct (beqb_spec s ($"italic")) as [->|S], (beqb_spec w ($"bold")) as [->|W]; eexists; constructor; assumption.
Qed.
Theorem file_letters s : font_file_style s = letters_of s.
Proof. reflexivity. Qed.
