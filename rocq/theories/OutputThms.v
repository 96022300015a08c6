(** Proofs about the output of documents as a whole (C89, C90). *)
From Coq Require Import Lia Permutation.
From Verif Require Import GoStr GoStrFacts Num Style Class Instr Engine Layout LayoutFacts Grid Table Lines LinesSpec LinesLink LinesView LinesThms WriteSpec WriteFacts Proc EngineFacts TableView TableSpec TableThms DrawSpec DrawFacts ProcInv ProcFrame ProcView ProcSpec ProcThms ProcThms2 ProcThms3 CellSpec CellThms OutputSpec OutputRun.
Local Open Scope nat_scope.

(** ** The texts of commands *)
Definition cmd_texts {F : Num} (cmds : list (cmd F)) : list bytes := flat_map (fun c => match c with WriteText t => [t] | _ => [] end) cmds.
Lemma written_cmds : forall (F : Num) (evs : list (event F)), written evs = cmd_texts (map ev_cmd evs).
Proof. intros F. induction evs as [|e evs IH]; [reflexivity|]. cbn. f_equal. exact IH. Qed.
Lemma texts_app : forall (F : Num) (a b : list (cmd F)), cmd_texts (a ++ b) = cmd_texts a ++ cmd_texts b.
Proof. intros. apply flat_map_app. Qed.
Lemma texts_cons : forall (F : Num) (c : scmd F) l, cmd_texts (Simple c :: l) = cmd_texts l.
Proof. reflexivity. Qed.
Lemma texts_simple : forall (F : Num) (l : list (scmd F)), cmd_texts (map Simple l) = [].
Proof. intros F. induction l as [|c l IH]; [reflexivity|exact IH]. Qed.
Lemma texts_fonts : forall (F : Num) (l : list (Font F)), cmd_texts (map (fun f => Simple (ChangeFont f)) l) = [].
Proof. intros F. induction l as [|c l IH]; [reflexivity|exact IH]. Qed.
Lemma texts_start : forall (F : Num) (sty : Styles F) fs, cmd_texts (start_cmds sty fs) = [].
Proof. intros. unfold start_cmds. cbn. apply texts_fonts. Qed.
Lemma texts_items : forall (F : Num) (its : list (textItem F)), cmd_texts (plain_items its) = map i_text its.
Proof. intros F. induction its as [|it its IH]; [reflexivity|]. cbn. f_equal. exact IH. Qed.
Lemma texts_moved : forall (F : Num) (its : list (textItem F)) xs, List.length xs = List.length its ->
  cmd_texts (moved_items its xs) = map (fun it => trim is_sp (i_text it)) its.
Proof. intros F. induction its as [|it its IH]; intros [|x xs] E; try discriminate E; [reflexivity|]. cbn. f_equal. apply IH. injection E as E. exact E. Qed.
Lemma texts_line : forall (F : Num) (sty : Styles F) w x l, cmd_texts (line_cmds sty w x l) = map i_text (l_items l).
Proof.
  intros. unfold line_cmds. rewrite !texts_app, texts_items. cbn. rewrite app_nil_r. unfold line_start.
  repeat destruct (beqb _ _); reflexivity.
Qed.

(** ** Spaces *)
Lemma unspaced_app : forall a b, unspaced (a ++ b) = unspaced a ++ unspaced b.
Proof. intros. apply filter_app. Qed.
Lemma unspaced_free : forall w, (forall c, In c w -> c <> sp) -> unspaced w = w.
Proof.
  induction w as [|c w IH]; intros H; [reflexivity|]. cbn. destruct (Ascii.eqb c sp) eqn:E; [apply Ascii.eqb_eq in E; exfalso; exact (H c (or_introl eq_refl) E)|].
  cbn. f_equal. apply IH. intros d Hd. apply H. right. exact Hd.
Qed.
Lemma unspaced_blank : forall p, Forall (fun c => is_sp c = true) p -> unspaced p = [].
Proof. intros p H. induction H as [|c p Hc H IH]; [reflexivity|]. cbn. unfold is_sp in Hc. rewrite Hc. exact IH. Qed.
Lemma unspaced_trim : forall t, unspaced (trim is_sp t) = unspaced t.
Proof.
  intros t. destruct (trim_split is_sp t) as (p & q & E & Hp & Hq). set (m := trim is_sp t) in *. rewrite E, !unspaced_app, (unspaced_blank p Hp), (unspaced_blank q Hq), app_nil_r. reflexivity.
Qed.
Lemma unspaced_concat : forall l, unspaced (List.concat l) = List.concat (map unspaced l).
Proof. induction l as [|a l IH]; [reflexivity|]. cbn. rewrite unspaced_app, IH. reflexivity. Qed.

(** ** One text *)
Section Text.
Context {F : Num} (env : Env F) {eng : Engine F}.
Local Notation PS := (PS F eng).
Hypothesis Hpage : page_stable (eng:=eng).
Lemma line_out : forall l : textLine F, spaced l -> (forall st w, In (st, w) (line_words l) -> forall c, In c w -> c <> sp) ->
  map unspaced (map i_text (l_items l)) = map snd (line_words l).
Proof.
  intros l Hs Hw. unfold spaced in Hs. unfold line_words in *. destruct (l_items l) as [|it its]; [reflexivity|]. cbn [tl map snd] in *. f_equal.
  - apply unspaced_free. intros c Hc. apply (Hw (i_sty it) (i_text it)); [left; reflexivity|exact Hc].
  - rewrite !map_map. apply map_ext_in. intros a Ha. cbn. destruct (Hs a Ha) as [w E]. rewrite E. cbn [tl]. cbn [unspaced filter]. rewrite Ascii.eqb_refl. cbn.
    apply unspaced_free. intros c Hc. apply (Hw (i_sty a) w); [|exact Hc]. right. apply in_map_iff. exists a. rewrite E. split; [reflexivity|exact Ha].
Qed.
Lemma words_free : forall page sty iss st w, In (st, w) (flat_map (instr_words (e_mut env) page sty) iss) -> forall c, In c w -> c <> sp.
Proof.
  intros page sty iss st w H. apply in_flat_map in H as (i & _ & H). destruct i; try destruct H; apply in_map_iff in H as (x & E & H); injection E as _ ->; apply (proj2 (text_words_free _ _ _ H)).
Qed.
Lemma block_out : forall sty x (lines : list (textLine F)) css, Forall2 (block_cmds sty x) lines css ->
  unspaced (List.concat (cmd_texts (List.concat css))) = flat_map line_letters lines.
Proof.
  intros sty x lines css H. induction H as [|l cs lines css Hl H IH]; [reflexivity|]. cbn [List.concat flat_map]. rewrite texts_app, concat_app, unspaced_app, IH. f_equal.
  unfold line_letters. rewrite flat_map_concat_map. unfold block_cmds in Hl. destruct (stretched l).
  - destruct Hl as (xs & El & ->). rewrite texts_cons, texts_app, texts_moved by exact El. cbn [cmd_texts flat_map line_end]. rewrite app_nil_r. rewrite !unspaced_concat, !map_map. f_equal. apply map_ext. intro. apply unspaced_trim.
  - subst cs. rewrite texts_cons, texts_app, texts_items. cbn [cmd_texts flat_map line_end]. rewrite app_nil_r. reflexivity.
Qed.
Lemma written_out_on : forall sty iss width x (s : PS) cmds, text_written env sty iss width x s cmds -> text_out_on env (currentPage (ps_eng (text_state sty s))) sty iss (cmd_texts cmds).
Proof.
  intros sty iss width x s cmds H. unfold text_written in H. unfold text_out_on. destruct (beqb (HAlign (SAlign sty)) ($"block")).
  - intros Hl. destruct H as (lines & s1 & css & E & C & ->). rewrite texts_app, texts_start. cbn [app]. rewrite (block_out _ _ _ _ C).
    assert (G := lines_letters (e_mut env) Hpage (e_hyph env) iss width sty (text_state sty s) Hl). rewrite E in G. destruct G as (ps & Fp & L & N).
    exists ps. split; [|split; [|exact N]].
    + clear - Fp. induction Fp as [|l p lines ps Hp Fp IH]; [reflexivity|]. cbn [flat_map]. rewrite IH. f_equal. unfold unhyphenated in Hp. exact Hp.
    + rewrite L. unfold text_letters, words. rewrite flat_map_concat_map. apply unspaced_free. intros c Hc. apply in_concat in Hc as (w & Hw & Hc). apply in_map_iff in Hw as ([st w'] & <- & Hw). exact (words_free _ _ _ _ _ Hw c Hc).
  - destruct H as (lines & s1 & E & ->). rewrite texts_app, texts_start. cbn [app].
    assert (G := lines_words (e_mut env) Hpage iss width sty (text_state sty s)). rewrite E in G. destruct G as [W S]. unfold words. rewrite <- W.
    assert (K : forall st w, In (st, w) (flat_map line_words lines) -> forall c, In c w -> c <> sp) by (rewrite W; apply words_free). clear - S K.
    induction S as [|l lines Hl S IH]; [reflexivity|]. cbn [flat_map] in *. rewrite texts_app, !map_app, texts_line. f_equal.
    + apply line_out; [exact Hl|]. intros st w Hw. apply (K st w). apply in_or_app. left. exact Hw.
    + apply IH. intros st w Hw. apply (K st w). apply in_or_app. right. exact Hw.
Qed.
Lemma written_out : forall sty iss width x (s : PS) cmds, text_written env sty iss width x s cmds -> text_out env sty iss (cmd_texts cmds).
Proof. intros sty iss width x s cmds H. eexists. exact (written_out_on _ _ _ _ _ _ H). Qed.
End Text.

(** ** Documents *)
Section Doc.
Context {F : Num} (env : Env F) {eng : Engine F}.
Hypothesis Hplace : places eng.
Hypothesis Hpage : page_stable (eng:=eng).
Hypothesis Hshuffle : forall l, Permutation (e_shuffle env l) l.
Lemma written_nil : forall sty, text_out env sty [] [].
Proof. intros sty. exists 0%Z. unfold text_out_on. destruct (beqb _ _); [|reflexivity]. intros _. exists []. split; [reflexivity|]. split; [reflexivity|]. intros a p E. destruct a; discriminate E. Qed.
Definition texts_ob : Observer env eng.
Proof.
  refine (mkObserver F env eng bytes unit (fun _ => written) (fun _ _ => tt) (fun _ _ => tt) (fun _ _ => True) (text_out env) _ _ _ _ _ _ _ _ _ _ _ written_nil _).
  - reflexivity.
  - intros. apply flat_map_app.
  - intros p c calls N. destruct c; try reflexivity. exfalso. exact (N _ eq_refl).
  - intros []. reflexivity.
  - reflexivity.
  - intros e. exists tt. exact I.
  - intros. exact I.
  - intros. exact I.
  - intros p e _. revert p. induction (addPage e) as [e0|c e0 k IH]; intros q; [exact I|split; [exact I|]]. intros. apply IH.
  - intros t p e _. revert p. induction (Engine.writeText t e) as [e0|c e0 k IH]; intros q; [exact I|split; [exact I|]]. intros. apply IH.
  - intros p e _. revert p. induction (writePDF e) as [e0|c e0 k IH]; intros q; [exact I|split; [exact I|]]. intros. apply IH.
  - intros sty iss width x s evs W p _. exists (written evs). split; [|reflexivity]. rewrite written_cmds. exact (written_out env Hpage _ _ _ _ _ _ W).
Defined.
Lemma process_says : forall depth e r (s' : PS F eng), process env depth e = Ok r s' ->
  writes_texts env (e_body env) (written (ps_trace s')) /\
  forall c sub, call_in (ps_trace s') c sub -> writes_texts env (match c with Header => e_header env | Footer => e_footer env end) (written sub).
Proof.
  intros depth e r s' H. destruct (process_leaves env Hplace Hpage Hshuffle texts_ob depth e r s' H tt I) as [K1 K2]. split; [exact K1|].
  intros c sub Hc. destruct (call_at_some F unit (after texts_ob) (enter texts_ob) _ _ _ Hc tt) as [q Hq]. exact (K2 _ _ _ Hq).
Qed.
End Doc.
