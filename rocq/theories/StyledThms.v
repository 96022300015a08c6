(** Proofs about the fonts and colours words are printed in (C102). *)
From Coq Require Import Permutation.
From Verif Require Import GoStr GoStrFacts Num Style Class Instr Engine Lines LinesSpec LinesFacts LinesLink LinesView LinesThms WriteSpec Proc ProcSpec OutputSpec OutputRun OutputThms StyledSpec.
Local Open Scope nat_scope.

(** ** The fragments of all lines, in order, spell the words *)
Section Spell.
Context {F : Num} (hyph : bytes -> list bytes) (width : F).
Definition frag_word (f : frag F) : list (Styles F * bytes) := match f with Whole st w _ | Head st w _ _ _ => [(st, w)] | Tail _ _ _ => [] end.
Inductive spelled : list (frag F) -> list (Styles F * bytes) -> Prop :=
| S_nil : spelled [] []
| S_whole : forall st w m fs ws, spelled fs ws -> spelled (Whole st w m :: fs) ((st, w) :: ws)
| S_cut : forall st w a b m m' fs ws, divides hyph w a b -> spelled fs ws ->
    spelled (Head st w a b m :: Tail st (List.concat b) m' :: fs) ((st, w) :: ws).
Lemma frag_tokens_words : forall l : list (frag F), flat_map token_words (flat_map frag_tokens l) = flat_map frag_word l.
Proof. induction l as [|[] l IH]; [reflexivity|..]; cbn; rewrite IH; reflexivity. Qed.
Lemma group_tokens_words : forall g : group F, flat_map token_words (group_tokens g) = flat_map frag_word (g_frags g).
Proof. intros [fs e]. unfold group_tokens. cbn [g_frags g_end]. rewrite flat_map_app, frag_tokens_words. destruct e; cbn; apply app_nil_r. Qed.
Definition tail_due (l : list (frag F)) : option (frag F) := match rev l with Head st w a b m :: _ => Some (Tail st (List.concat b) m) | _ => None end.
Definition opened (prev : option (group F)) : option (frag F) := match prev with Some g => tail_due (g_frags g) | None => None end.
Lemma plain_spelled : forall l : list (frag F), (forall pre f post, l = pre ++ f :: post -> (is_head f = true -> post = []) /\
    match f with Whole _ _ _ => True | Head _ w a b _ => divides hyph w a b | Tail _ _ _ => False end) ->
  forall fs ws, match tail_due l with Some t => exists fs', fs = t :: fs' /\ spelled fs' ws | None => spelled fs ws end ->
  spelled (l ++ fs) (flat_map frag_word l ++ ws).
Proof.
  induction l as [|f l IH]; intros H fs ws K; [exact K|]. destruct l as [|f' l].
  - destruct (H [] f [] eq_refl) as [_ Hf]. destruct f as [st w m|st w a b m|st r m]; [| |contradiction].
    + constructor. exact K.
    + destruct K as (fs' & -> & K). constructor; assumption.
  - destruct (H [] f (f' :: l) eq_refl) as [Hh Hf]. destruct f as [st w m|st w a b m|st r m]; [|specialize (Hh eq_refl); discriminate Hh|contradiction].
    change (spelled (Whole st w m :: (f' :: l) ++ fs) ((st, w) :: flat_map frag_word (f' :: l) ++ ws)). constructor. apply IH.
    + intros pre f post E. apply (H (Whole st w m :: pre) f post). rewrite E. reflexivity.
    + unfold tail_due in *. cbn [rev] in *. destruct (rev l ++ [f']) eqn:E; [destruct (rev l); discriminate E|]. exact K.
Qed.
Lemma last_cons : forall (g : group F) gs prev, last_or prev (g :: gs) = last_or (Some g) gs.
Proof. intros. unfold last_or. cbn [rev]. destruct (rev gs); reflexivity. Qed.
Lemma groups_spelled : forall gs prev, groups_ok hyph width prev gs ->
  (opened prev <> None -> exists p, prev = Some (mkGroup p Wrapped)) -> opened (last_or prev gs) = None ->
  match opened prev with
  | Some t => exists fs, flat_map g_frags gs = t :: fs /\ spelled fs (flat_map token_words (flat_map group_tokens gs))
  | None => spelled (flat_map g_frags gs) (flat_map token_words (flat_map group_tokens gs))
  end.
Proof.
  induction gs as [|g gs IH]; intros prev H Hp Hl.
  - unfold last_or in Hl. cbn in Hl. rewrite Hl. constructor.
  - destruct H as [[G1 G2] H]. rewrite last_cons in Hl.
    assert (Hg : opened (Some g) <> None -> exists p, Some g = Some (mkGroup p Wrapped)).
    { intros Ho. destruct g as [fs e]. cbn [opened g_frags] in Ho. unfold tail_due in Ho. destruct (rev fs) as [|f r] eqn:E; [congruence|]. destruct f as [|st w a b m|]; try congruence.
      exists fs. assert (fs = rev r ++ [Head st w a b m]) as Ef by (rewrite <- (rev_involutive fs), E; reflexivity).
      cbn [g_frags g_end] in G1. destruct (G1 _ _ _ Ef) as [_ W]. destruct (W eq_refl) as [_ ->]. reflexivity. }
    specialize (IH (Some g) H Hg Hl).
    assert (NT : forall pre st r m post, g_frags g = pre ++ Tail st r m :: post -> pre = [] /\ opened prev <> None).
    { intros pre st r m post E. destruct (G1 _ _ _ E) as [(-> & p & w & a & b & -> & ->) _]. split; [reflexivity|]. cbn [opened g_frags]. unfold tail_due. rewrite rev_app_distr. discriminate. }
    assert (HD : forall pre f post, g_frags g = pre ++ f :: post -> (is_head f = true -> post = []) /\ match f with Head _ w a b _ => divides hyph w a b | _ => True end).
    { intros pre f post E. destruct (G1 _ _ _ E) as [Fo W]. split; [intros h; exact (proj1 (W h))|]. destruct f; try exact I. exact (proj1 (proj2 Fo)). }
    cbn [flat_map]. rewrite flat_map_app, group_tokens_words. destruct (opened prev) as [t|] eqn:Eo.
    + destruct (Hp ltac:(discriminate)) as (p & ->). cbn [opened g_frags] in Eo. unfold tail_due in Eo. destruct (rev p) as [|[|st w a b m|] ?]; try discriminate Eo. injection Eo as <-.
      destruct G2 as (fs & Ef). rewrite Ef in *. exists (fs ++ flat_map g_frags gs). split; [reflexivity|]. cbn [flat_map frag_word app]. apply plain_spelled.
      * intros pre f post E. assert (E' : Tail st (List.concat b) m :: fs = (Tail st (List.concat b) m :: pre) ++ f :: post) by (rewrite E; reflexivity).
        destruct (HD _ _ _ E') as [h1 h2]. split; [exact h1|]. destruct f; try exact I; [exact h2|]. destruct (NT _ _ _ _ _ E') as [K _]. discriminate K.
      * cbn [opened] in IH. rewrite Ef in IH. unfold tail_due in *. cbn [rev] in IH. destruct (rev fs) as [|f r]; exact IH.
    + apply plain_spelled; [|exact IH]. intros pre f post E. destruct (HD _ _ _ E) as [h1 h2]. split; [exact h1|]. destruct f; try exact I; [exact h2|].
      destruct (NT _ _ _ _ _ E) as [_ K]. congruence.
Qed.
Lemma broken_spelled : forall ts gs, broken_into hyph width ts gs -> spelled (flat_map g_frags gs) (flat_map token_words ts).
Proof.
  intros ts gs [B1 B2 B3]. rewrite <- B1. apply (groups_spelled gs None B2); [intros K; cbn in K; congruence|].
  destruct gs as [|g gs _] using rev_ind; [reflexivity|]. unfold last_or. rewrite rev_app_distr. cbn [rev app].
  destruct g as [fs e]. cbn [opened g_frags]. unfold tail_due. destruct (rev fs) as [|f r] eqn:E; [reflexivity|]. destruct f as [|st w a b m|]; try reflexivity. exfalso.
  assert (Ef : fs = rev r ++ [Head st w a b m]) by (rewrite <- (rev_involutive fs), E; reflexivity).
  assert (G := groups_at _ _ _ _ B2 gs (mkGroup fs e) [] eq_refl). destruct G as [G1 _]. destruct (G1 _ _ _ Ef) as [_ W]. destruct (W eq_refl) as [_ We].
  destruct (B3 gs (mkGroup fs e) [] eq_refl) as [_ K]. exact (K eq_refl We).
Qed.
End Spell.

(** ** What commands print *)
Section Print.
Context {F : Num}.
Fixpoint cmd_prints (p : pen F) (cmds : list (cmd F)) : list (pen F * bytes) :=
  match cmds with [] => [] | c :: cmds' => match c with WriteText t => [(p, t)] | _ => [] end ++ cmd_prints (pen_after p c) cmds' end.
Definition pen_end (p : pen F) (cmds : list (cmd F)) : pen F := fold_left pen_after cmds p.
Lemma prints_cmds : forall evs (p : pen F), prints p evs = cmd_prints p (map ev_cmd evs).
Proof. induction evs as [|e evs IH]; intros p; [reflexivity|]. cbn. f_equal. apply IH. Qed.
Lemma cmd_prints_app : forall a b (p : pen F), cmd_prints p (a ++ b) = cmd_prints p a ++ cmd_prints (pen_end p a) b.
Proof. induction a as [|c a IH]; intros b p; [reflexivity|]. cbn. rewrite IH, app_assoc. reflexivity. Qed.
Lemma prints_app : forall (p : pen F) a b, prints p (a ++ b) = prints p a ++ prints (fold_left (fun p e => pen_after p (ev_cmd e)) a p) b.
Proof. intros p a. revert p. induction a as [|e a IH]; intros p b; [reflexivity|]. cbn. rewrite IH, app_assoc. reflexivity. Qed.
Lemma pen_end_color : forall cmds (p : pen F), (forall r g b, ~ In (Simple (SetTextColor r g b)) cmds) -> pen_color (pen_end p cmds) = pen_color p.
Proof.
  induction cmds as [|c cmds IH]; intros p H; [reflexivity|]. cbn. unfold pen_end in IH. rewrite IH by (intros r g b K; exact (H r g b (or_intror K))).
  destruct c as [c| | |]; try reflexivity. destruct c; try reflexivity. exfalso. exact (H _ _ _ (or_introl eq_refl)).
Qed.
(** An item printed in the colour [c], spaces not considered. *)
Definition item_printed (c : option RGB) (it : textItem F) (q : pen F * bytes) : Prop :=
  fst q = mkPen (Some (SFont (i_sty it))) c /\ unspaced (snd q) = unspaced (i_text it).
Lemma plain_printed : forall its (p : pen F), Forall2 (item_printed (pen_color p)) its (cmd_prints p (plain_items its)) /\ pen_color (pen_end p (plain_items its)) = pen_color p.
Proof.
  induction its as [|it its IH]; intros p; [split; [constructor|reflexivity]|]. destruct (IH (mkPen (Some (SFont (i_sty it))) (pen_color p))) as [A B].
  split; [|exact B]. cbn. constructor; [split; reflexivity|exact A].
Qed.
Lemma moved_printed : forall its xs (p : pen F), List.length xs = List.length its ->
  Forall2 (item_printed (pen_color p)) its (cmd_prints p (moved_items its xs)) /\ pen_color (pen_end p (moved_items its xs)) = pen_color p.
Proof.
  induction its as [|it its IH]; intros [|x xs] p E; try discriminate E; [split; [constructor|reflexivity]|]. injection E as E.
  destruct (IH xs (mkPen (Some (SFont (i_sty it))) (pen_color p)) E) as [A B]. split; [|exact B]. cbn. constructor; [split; [reflexivity|apply unspaced_trim]|exact A].
Qed.
Lemma line_printed : forall sty w x (l : textLine F) p, Forall2 (item_printed (pen_color p)) (l_items l) (cmd_prints p (line_cmds sty w x l)) /\ pen_color (pen_end p (line_cmds sty w x l)) = pen_color p.
Proof.
  intros sty w x l p. unfold line_cmds. rewrite !cmd_prints_app. unfold pen_end. rewrite !fold_left_app.
  assert (S : cmd_prints p (line_start sty w x l) = [] /\ fold_left pen_after (line_start sty w x l) p = p) by (unfold line_start; repeat destruct (beqb _ _); split; reflexivity).
  destruct S as [-> S]. unfold pen_end. rewrite S. destruct (plain_printed (l_items l) p) as [A B]. unfold line_end. cbn. rewrite app_nil_r. split; [exact A|exact B].
Qed.
Lemma block_printed : forall sty x (l : textLine F) cs p, block_cmds sty x l cs -> Forall2 (item_printed (pen_color p)) (l_items l) (cmd_prints p cs) /\ pen_color (pen_end p cs) = pen_color p.
Proof.
  intros sty x l cs p H. unfold block_cmds in H. destruct (stretched l).
  - destruct H as (xs & El & ->). destruct (moved_printed (l_items l) xs p El) as [A B]. cbn [cmd_prints pen_after app]. rewrite cmd_prints_app. cbn. rewrite app_nil_r. split; [exact A|].
    unfold pen_end in *. cbn. rewrite fold_left_app. exact B.
  - subst cs. destruct (plain_printed (l_items l) p) as [A B]. cbn [cmd_prints pen_after app]. rewrite cmd_prints_app. cbn. rewrite app_nil_r. split; [exact A|].
    unfold pen_end in *. cbn. rewrite fold_left_app. exact B.
Qed.
Lemma lines_printed : forall (lines : list (textLine F)) css, Forall2 (fun l cs => forall p, Forall2 (item_printed (pen_color p)) (l_items l) (cmd_prints p cs) /\ pen_color (pen_end p cs) = pen_color p) lines css ->
  forall p, Forall2 (item_printed (pen_color p)) (flat_map l_items lines) (cmd_prints p (List.concat css)).
Proof.
  intros lines css H. induction H as [|l cs lines css Hl H IH]; intros p; [constructor|]. cbn [flat_map List.concat]. rewrite cmd_prints_app. destruct (Hl p) as [A B].
  apply Forall2_app; [exact A|]. rewrite <- B. apply IH.
Qed.
(** A fragment printed. *)
Definition frag_sty (f : frag F) : Styles F := match f with Whole st _ _ | Head st _ _ _ _ | Tail st _ _ => st end.
Definition frag_letters (f : frag F) : bytes :=
  match f with Whole _ w _ => unspaced w | Head _ _ a _ _ => unspaced (List.concat a) ++ ["-"%char] | Tail _ r _ => unspaced r end.
Definition frag_printed (c : option RGB) (f : frag F) (q : pen F * bytes) : Prop :=
  fst q = mkPen (Some (SFont (frag_sty f))) c /\ unspaced (snd q) = frag_letters f.
Lemma item_letters : forall b (f : frag F), i_sty (frag_item b f) = frag_sty f /\ unspaced (i_text (frag_item b f)) = frag_letters f.
Proof.
  intros b [st w m|st w a d m|st r m]; cbn [frag_item i_sty i_text frag_sty frag_letters]; split; try reflexivity; try (destruct b; reflexivity).
  unfold head_text. change (sp :: List.concat a ++ ["-"%char]) with ([sp] ++ List.concat a ++ ["-"%char]). rewrite !OutputThms.unspaced_app. reflexivity.
Qed.
Lemma items_printed : forall c (fs : list (frag F)) qs, Forall2 (item_printed c) (items_of fs) qs -> Forall2 (frag_printed c) fs qs.
Proof.
  assert (One : forall c b f q, item_printed c (frag_item b f) q -> frag_printed c f q) by (intros c b f q [A B]; destruct (item_letters b f) as [E1 E2]; split; [rewrite A, E1|rewrite B, E2]; reflexivity).
  assert (M : forall c (fs : list (frag F)) qs, Forall2 (item_printed c) (map (frag_item false) fs) qs -> Forall2 (frag_printed c) fs qs).
  { intros c fs. induction fs as [|f fs IH]; intros qs H; inversion H; subst; constructor; [exact (One _ _ _ _ H2)|apply IH; assumption]. }
  intros c [|f fs] qs H; inversion H; subst; constructor; [exact (One _ _ _ _ H2)|apply M; assumption].
Qed.
Lemma groups_printed : forall c (lines : list (textLine F)) gs, Forall2 is_line lines gs -> forall qs,
  Forall2 (item_printed c) (flat_map l_items lines) qs -> Forall2 (frag_printed c) (flat_map g_frags gs) qs.
Proof.
  intros c lines gs L. induction L as [|l g lines gs [L1 _] L IH]; intros qs H; [inversion H; subst; constructor|]. cbn [flat_map] in *.
  apply Forall2_app_inv_l in H as (q1 & q2 & H1 & H2 & ->). apply Forall2_app; [|exact (IH _ H2)]. rewrite L1 in H1. exact (items_printed _ _ _ H1).
Qed.
End Print.

(** ** Texts *)
Section Text.
Context {F : Num} (env : Env F) {eng : Engine F}.
Hypothesis Hpage : page_stable (eng:=eng).
Lemma tokens_elements : forall n sty iss (e : est eng), flat_map token_words (tokens (e_mut env) (beqb (HAlign (SAlign sty)) ($"block")) n sty iss e) = flat_map (element_words env n sty) iss.
Proof.
  intros n sty. set (blank := beqb _ _). induction iss as [|i iss IH]; intros e; [reflexivity|].
  assert (K : forall st ws (e : est eng), flat_map token_words match match ws with [] => if blank then [[]] else [] | _ => ws end with [] => tokens (e_mut env) blank n sty iss e
     | ws => map (fun w => TWord st w (textWidth (simple (ChangeFont (SFont st)) e))) ws ++ tokens (e_mut env) blank n sty iss (simple (ChangeFont (SFont st)) e) end =
     match ws with [] => if blank then [(st, [])] else [] | _ => map (fun w => (st, w)) ws end ++ flat_map (element_words env n sty) iss).
  { intros st ws e0. destruct ws as [|w ws]; [destruct blank; [cbn; rewrite IH; reflexivity|apply IH]|]. rewrite flat_map_app, token_words_map, IH. reflexivity. }
  cbn [tokens flat_map]. destruct i; cbn [reading flat_map token_words app]; try apply IH.
  - etransitivity; [apply K|]. f_equal. unfold element_words. cbn [instr_words]. destruct (text_words n _); reflexivity.
  - etransitivity; [apply K|]. f_equal. unfold element_words. cbn [instr_words]. destruct (text_words n _); reflexivity.
Qed.
Lemma spelled_printed : forall (block : bool) c fs ws, spelled (F:=F) (if block then e_hyph env else (fun _ : bytes => [])) fs ws ->
  (forall st w, In (st, w) ws -> unspaced w = w) -> forall qs, Forall2 (frag_printed (Some c)) fs qs ->
  exists outs, qs = List.concat outs /\ Forall2 (fun p o => word_printed env block c (fst p) (snd p) o) ws outs.
Proof.
  intros block c fs ws H. induction H as [|st w m fs ws H IH|st w a b m m' fs ws D H IH]; intros Hw qs Q.
  - inversion Q; subst. exists []. split; [reflexivity|constructor].
  - inversion Q as [|? q ? qs' [A B] Q']; subst. destruct (IH (fun st w K => Hw st w (or_intror K)) _ Q') as (outs & -> & O). exists ([q] :: outs). split; [reflexivity|]. constructor; [|exact O].
    split; [constructor; [exact A|constructor]|]. left. cbn [map fst snd]. rewrite B. cbn [frag_letters]. rewrite (Hw st w (or_introl eq_refl)). reflexivity.
  - inversion Q as [|? q ? qs' [A B] Q']; subst. inversion Q' as [|? q2 ? qs2 [A2 B2] Q2]; subst. destruct (IH (fun st w K => Hw st w (or_intror K)) _ Q2) as (outs & -> & O).
    exists ([q; q2] :: outs). split; [reflexivity|]. constructor; [|exact O]. split; [constructor; [exact A|constructor; [exact A2|constructor]]|]. right. cbn [map fst snd]. rewrite B, B2.
    destruct block; [|destruct D as (D & D1 & _); destruct a; [congruence|discriminate D]]. split; [reflexivity|]. exists a, b. split; [exact D|reflexivity].
Qed.
Lemma element_free : forall n sty iss st w, In (st, w) (flat_map (element_words env n sty) iss) -> unspaced w = w.
Proof.
  intros n sty iss st w H. apply in_flat_map in H as (i & Hi & H).
  assert (K : In (st, w) (instr_words (e_mut env) n sty i) \/ w = []).
  { unfold element_words in H. destruct i; try (left; exact H); destruct (instr_words _ _ _ _) eqn:E; try (left; exact H); destruct (beqb _ _); destruct H as [H|[]] || destruct H; injection H as _ <-; right; reflexivity. }
  destruct K as [K| ->]; [|reflexivity]. apply unspaced_free. intros c Hc. apply (words_free env n sty iss st w); [|exact Hc]. apply in_flat_map. exists i. split; assumption.
Qed.
Lemma text_prints : forall sty iss width x (s : PS F eng) evs, text_written env sty iss width x s (map ev_cmd evs) ->
  exists o, text_printed env outer_colour sty iss o /\ forall p, prints p evs = o.
Proof.
  intros sty iss width x s evs H. set (c := TextColor (SColor sty)). set (p0 := mkPen (Some (SFont sty)) (Some c)).
  assert (Start : forall fs cmds p, cmd_prints p (start_cmds sty fs ++ cmds) = cmd_prints (pen_end p0 (map (fun f => Simple (ChangeFont f)) fs)) cmds /\
     pen_color (pen_end p0 (map (fun f => Simple (ChangeFont f)) fs)) = Some c).
  { intros fs cmds p. assert (Q : forall fs (p : pen F), cmd_prints p (map (fun f => Simple (ChangeFont f)) fs) = []) by (induction fs0 as [|f fs0 IH]; intros q; [reflexivity|apply IH]).
    split.
    - rewrite cmd_prints_app. unfold start_cmds. cbn [cmd_prints pen_after app pen_end fold_left pen_font pen_color]. rewrite Q. cbn [app]. unfold pen_end.
      replace (mkRGB (R (TextColor (SColor sty))) (G (TextColor (SColor sty))) (B (TextColor (SColor sty)))) with c by (unfold c; destruct (TextColor (SColor sty)); reflexivity). reflexivity.
    - rewrite pen_end_color; [reflexivity|]. intros r g b K. apply in_map_iff in K as (f & K & _). discriminate K. }
  set (blk := beqb (HAlign (SAlign sty)) ($"block")) in *.
  assert (Fin : forall gs lines css (e : est eng), Forall2 is_line lines gs -> broken_into (if blk then e_hyph env else (fun _ : bytes => [])) width (tokens (e_mut env) blk (currentPage (ps_eng (text_state sty s))) sty iss e) gs ->
     Forall2 (fun l cs => forall p : pen F, Forall2 (item_printed (pen_color p)) (l_items l) (cmd_prints p cs) /\ pen_color (pen_end p cs) = pen_color p) lines css ->
     forall fs, map ev_cmd evs = start_cmds sty fs ++ List.concat css -> exists o, text_printed env outer_colour sty iss o /\ forall p, prints p evs = o).
  { intros gs lines css e L Br P fs E. eexists. split; [|intros p; rewrite prints_cmds, E, (proj1 (Start fs _ p)); reflexivity].
    assert (Q := groups_printed _ _ _ L _ (lines_printed _ _ P (pen_end p0 (map (fun f => Simple (ChangeFont f)) fs)))). rewrite (proj2 (Start fs [] p0)) in Q.
    assert (Sp := broken_spelled _ _ _ _ Br). unfold blk in Sp at 2. rewrite tokens_elements in Sp. destruct (spelled_printed _ _ _ _ Sp (element_free _ _ _) _ Q) as (outs & Eo & O).
    exists (currentPage (ps_eng (text_state sty s))), outs. split; [exact Eo|]. fold blk. exact O. }
  unfold text_written in H. fold blk in H. destruct blk eqn:Eb.
  - destruct H as (lines & s1 & css & E & C & Ec). destruct (textLinesHyphenated_rules (e_mut env) (e_hyph env) Hpage iss width sty (text_state sty s)) as (lines' & gs & E' & L & _ & Br).
    rewrite E in E'. injection E' as <- _. apply (Fin gs lines css _ ltac:(clear - L; induction L as [|l g lines gs [L1 _] L IH]; constructor; assumption) Br) in Ec; [exact Ec|].
    clear - C. induction C as [|l cs lines css Hl C IH]; constructor; [|exact IH]. intros p. exact (block_printed _ _ _ _ p Hl).
  - destruct H as (lines & s1 & E & Ec). destruct (textLines_rules (e_mut env) Hpage iss width sty (text_state sty s)) as (lines' & gs & E' & L & Br).
    rewrite E in E'. injection E' as <- _. rewrite flat_map_concat_map in Ec. apply (Fin gs lines _ _ L Br) in Ec; [exact Ec|].
    clear. induction lines as [|l lines IH]; constructor; [|exact IH]. intros p. apply line_printed.
Qed.
Lemma printed_nil : forall sty, text_printed env outer_colour sty [] [].
Proof. intros sty. exists 0%Z, []. split; [reflexivity|constructor]. Qed.
Hypothesis Hplace : places eng.
Hypothesis Hshuffle : forall l, Permutation (e_shuffle env l) l.
Definition prints_ob (p0 : pen F) : Observer env eng.
Proof.
  refine (mkObserver F env eng (pen F * bytes) (pen F) prints (fun p evs => fold_left (fun p e => pen_after p (ev_cmd e)) evs p) (fun _ _ => p0) (fun _ _ => True)
    (text_printed env outer_colour) _ _ _ _ _ _ _ _ _ _ _ printed_nil _).
  - reflexivity.
  - exact prints_app.
  - intros p c calls N. destruct c; try reflexivity. exfalso. exact (N _ eq_refl).
  - reflexivity.
  - intros p a b. apply fold_left_app.
  - intros e. exists no_pen. exact I.
  - intros. exact I.
  - intros. exact I.
  - intros p e _. revert p. induction (addPage e) as [e0|c e0 k IH]; intros q; [exact I|split; [exact I|]]. intros. apply IH.
  - intros t p e _. revert p. induction (Engine.writeText t e) as [e0|c e0 k IH]; intros q; [exact I|split; [exact I|]]. intros. apply IH.
  - intros p e _. revert p. induction (writePDF e) as [e0|c e0 k IH]; intros q; [exact I|split; [exact I|]]. intros. apply IH.
  - intros sty iss width x s evs W p _. destruct (text_prints _ _ _ _ _ _ W) as (o & O & E). exists o. split; [exact O|exact (E p)].
Defined.
Lemma process_prints : forall depth e r (s' : PS F eng), process env depth e = Ok r s' ->
  prints_texts env outer_colour (e_body env) (ps_trace s') /\
  forall c sub, call_in (ps_trace s') c sub -> prints_texts env outer_colour (match c with Header => e_header env | Footer => e_footer env end) sub.
Proof.
  intros depth e r s' H. assert (K := fun p0 => process_leaves env Hplace Hpage Hshuffle (prints_ob p0) depth e r s' H). split; [intros p; exact (proj1 (K p p I))|].
  intros c sub Hc p. destruct (call_at_some F (pen F) (after (prints_ob p)) (enter (prints_ob p)) _ _ _ Hc p) as [q Hq]. exact (proj2 (K p p I) _ _ _ Hq).
Qed.
End Text.
