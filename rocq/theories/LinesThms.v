(** Consequences of the rules of line breaking. *)
From Coq Require Import QArith Lia Lqa.
From Verif Require Import GoStr GoFmt GoStrFacts Num Style Class Text Instr Engine EngineFacts Layout Lines LinesSpec LinesFacts LinesLink LinesView.
From Verif Require TextSpec TextFacts.
Local Open Scope nat_scope.

(** ** The words of a text *)
Lemma words_blank_free : forall s cur, Forall (fun c => TextSpec.blankb c = false) cur ->
  Forall (fun w => w <> [] /\ Forall (fun c => TextSpec.blankb c = false) w) (TextSpec.words_from cur s).
Proof.
  assert (R : forall (c : ascii) cur, Forall (fun c => TextSpec.blankb c = false) (c :: cur) -> rev (c :: cur) <> [] /\ Forall (fun c => TextSpec.blankb c = false) (rev (c :: cur))).
  { intros c cur H. split; [cbn; intro K; destruct (rev cur); discriminate K|]. apply Forall_rev. exact H. }
  induction s as [|c s IH]; intros cur H; cbn [TextSpec.words_from].
  - destruct cur as [|c cur]; constructor; [apply R; exact H|constructor].
  - destruct (TextSpec.blankb c) eqn:E.
    + destruct cur as [|c' cur]; [apply IH; constructor|]. constructor; [apply R; exact H|apply IH; constructor].
    + apply IH. constructor; assumption.
Qed.
Lemma text_words_free : forall n t w, In w (text_words n t) -> w <> [] /\ forall c, In c w -> c <> sp.
Proof.
  intros n t w H. unfold text_words in H. assert (G := words_blank_free (TextSpec.rectified_spec (replace_all t ($"{cp}") (itoa n))) [] (Forall_nil _)).
  rewrite Forall_forall in G. destruct (G w H) as [A B]. split; [exact A|]. intros c Hc ->. rewrite Forall_forall in B. specialize (B sp Hc). discriminate B.
Qed.

Lemma Forall2_in_l : forall A B (R : A -> B -> Prop) l m, Forall2 R l m -> forall x, In x l -> exists y, In y m /\ R x y.
Proof.
  intros A B R l m H. induction H as [|a b l m Hab H IH]; intros x Hx; [destruct Hx|]. destruct Hx as [<-|Hx].
  - exists b. split; [left; reflexivity|exact Hab].
  - destruct (IH x Hx) as (y & Hy & K). exists y. split; [right; exact Hy|exact K].
Qed.

Section Thms.
Context {F : Num} {eng : Engine F}.
Local Notation PS := (PS F eng).
Variable mut : Styled F -> Styles F -> Styles F.

(** ** Tokens and instructions *)
Definition token_words (t : token F) : list (Styles F * bytes) := match t with TWord st w _ => [(st, w)] | TBreak => [] end.
Lemma token_words_map : forall st (m : bytes -> F) ws, flat_map token_words (map (fun w => TWord st w m) ws) = map (fun w => (st, w)) ws.
Proof. intros st m. induction ws as [|w ws IH]; [reflexivity|]. cbn. f_equal. exact IH. Qed.
Lemma tokens_words : forall n sty iss (e : est eng), flat_map token_words (tokens mut false n sty iss e) = flat_map (instr_words mut n sty) iss.
Proof.
  intros n sty. induction iss as [|is iss IH]; intros e; [reflexivity|].
  assert (K : forall st ws (e : est eng), flat_map token_words match ws with [] => tokens mut false n sty iss e
     | _ => map (fun w => TWord st w (textWidth (simple (ChangeFont (SFont st)) e))) ws ++ tokens mut false n sty iss (simple (ChangeFont (SFont st)) e) end
     = map (fun w => (st, w)) ws ++ flat_map (instr_words mut n sty) iss).
  { intros st ws e0. destruct ws as [|w ws]; [apply IH|]. rewrite flat_map_app, token_words_map, IH. reflexivity. }
  cbn [tokens flat_map]. destruct is; cbn [reading instr_words flat_map token_words app]; try apply IH.
  - rewrite <- K with (e := e). destruct (text_words n _); reflexivity.
  - rewrite <- K with (e := e). destruct (text_words n _); reflexivity.
Qed.
Lemma tokens_letters : forall blank n sty iss (e : est eng),
  unspaced (flat_map snd (flat_map token_words (tokens mut blank n sty iss e))) = text_letters mut n sty iss.
Proof.
  intros [|]; [|intros; rewrite tokens_words; reflexivity]. intros n sty. unfold text_letters. induction iss as [|is iss IH]; intros e; [reflexivity|].
  assert (App : forall a b, unspaced (a ++ b) = unspaced a ++ unspaced b) by (intros; apply filter_app).
  assert (K : forall st ws (e : est eng), unspaced (flat_map snd (flat_map token_words match match ws with [] => [[]] | _ => ws end with [] => tokens mut true n sty iss e
     | ws => map (fun w => TWord st w (textWidth (simple (ChangeFont (SFont st)) e))) ws ++ tokens mut true n sty iss (simple (ChangeFont (SFont st)) e) end))
     = unspaced (flat_map snd (map (fun w => (st, w)) ws ++ flat_map (instr_words mut n sty) iss))).
  { intros st ws e0. destruct ws as [|w ws]; [cbn; apply IH|]. rewrite !flat_map_app, token_words_map, !App, IH. reflexivity. }
  cbn [tokens]. destruct is; cbn [reading instr_words flat_map token_words app]; try apply IH.
  - rewrite <- K with (e := e). destruct (text_words n _); reflexivity.
  - rewrite <- K with (e := e). destruct (text_words n _); reflexivity.
Qed.
Lemma tokens_free : forall blank n sty iss (e : est eng) st w m, In (TWord st w m) (tokens mut blank n sty iss e) -> forall c, In c w -> c <> sp.
Proof.
  intros blank n sty. induction iss as [|is iss IH]; intros e st w m H; [destruct H|].
  assert (K : forall st' t (e : est eng), In (TWord st w m) match match text_words n t with [] => if blank then [[]] else [] | _ => text_words n t end with [] => tokens mut blank n sty iss e
     | ws => map (fun w => TWord st' w (textWidth (simple (ChangeFont (SFont st')) e))) ws ++ tokens mut blank n sty iss (simple (ChangeFont (SFont st')) e) end -> forall c, In c w -> c <> sp).
  { intros st' t e0 H0. assert (W := text_words_free n t). destruct (text_words n t) as [|w0 ws].
    - destruct blank; [|exact (IH _ _ _ _ H0)]. apply in_app_or in H0 as [H0|H0]; [|exact (IH _ _ _ _ H0)].
      destruct H0 as [H0|[]]. injection H0 as _ <- _. intros c [].
    - apply in_app_or in H0 as [H0|H0]; [|exact (IH _ _ _ _ H0)]. apply in_map_iff in H0 as (w' & E & Hw). injection E as _ <- _. exact (proj2 (W w' Hw)). }
  cbn [tokens] in H. destruct is; cbn [reading] in H; try exact (IH _ _ _ _ H).
  - exact (K _ _ _ H).
  - exact (K _ _ _ H).
  - destruct H as [H|H]; [discriminate H|exact (IH _ _ _ _ H)].
Qed.
Lemma tokens_break : forall blank n sty iss (e : est eng), In TBreak (tokens mut blank n sty iss e) -> In ILineBreak iss.
Proof.
  intros blank n sty. induction iss as [|is iss IH]; intros e H; [destruct H|].
  assert (K : forall st' ws (e : est eng), In TBreak match match ws with [] => if blank then [[]] else [] | _ => ws end with [] => tokens mut blank n sty iss e
     | ws => map (fun w => TWord st' w (textWidth (simple (ChangeFont (SFont st')) e))) ws ++ tokens mut blank n sty iss (simple (ChangeFont (SFont st')) e) end -> In ILineBreak (is :: iss)).
  { intros st' ws e0 H0. right. destruct (match ws with [] => if blank then [[]] else [] | _ => ws end) as [|w0 ws']; [exact (IH _ H0)|].
    apply in_app_or in H0 as [H0|H0]; [|exact (IH _ H0)]. apply in_map_iff in H0 as (w' & E & _). discriminate E. }
  cbn [tokens] in H. destruct is; cbn [reading] in H; try (right; exact (IH _ H)).
  - exact (K _ _ _ H).
  - exact (K _ _ _ H).
  - left. reflexivity.
Qed.

(** ** Words *)
Section Rules.
Variables (hyph : bytes -> list bytes) (width : F).
Lemma groups_at : forall gs prev, groups_ok hyph width prev gs -> forall a g b, gs = a ++ g :: b -> group_ok hyph width (last_or prev a) g.
Proof.
  induction gs as [|g0 gs IH]; intros prev H a g b E; [destruct a; discriminate E|]. cbn in H. destruct H as [H1 H2]. destruct a as [|g1 a].
  - injection E as -> _. exact H1.
  - injection E as -> ->. assert (L : last_or prev (g1 :: a) = last_or (Some g1) a) by (unfold last_or; cbn [rev]; destruct (rev a); reflexivity).
    rewrite L. exact (IH _ H2 a g b eq_refl).
Qed.
Lemma frag_in_group : forall gs prev, groups_ok hyph width prev gs -> forall g pre f post, In g gs -> g_frags g = pre ++ f :: post -> exists p, frag_ok hyph width p pre f.
Proof.
  intros gs prev H g pre f post Hg E. apply in_split in Hg as (a & b & ->). eexists. exact (proj1 (proj1 (groups_at _ _ H a g b eq_refl) pre f post E)).
Qed.
End Rules.
Definition frag_words (f : frag F) : list (Styles F * bytes) := match f with Whole st w _ => [(st, w)] | _ => [] end.
Lemma no_head : forall width gs, groups_ok (fun _ => []) width None gs -> forall g f, In g gs -> In f (g_frags g) -> is_head (F:=F) f = false.
Proof.
  intros width gs H g f Hg Hf. apply in_split in Hf as (pre & post & E). destruct f as [st w m|st w a b m|st r m]; try reflexivity.
  exfalso. destruct (frag_in_group _ _ _ _ H g pre _ post Hg E) as (p & _ & (D1 & D2 & _) & _). destruct a; [congruence|discriminate D1].
Qed.
Lemma last_in : forall (x : list (group F)) g, last_or None x = Some g -> In g x.
Proof. intros x g H. unfold last_or in H. destruct (rev x) as [|g1 xs] eqn:E; [discriminate H|]. injection H as ->. apply in_rev. rewrite E. left. reflexivity. Qed.
Lemma no_parts : forall width gs, groups_ok (fun _ => []) width None gs -> forall g f, In g gs -> In f (g_frags g) -> exists st w m, f = Whole (F:=F) st w m.
Proof.
  intros width gs H g f Hg Hf. assert (Hn := no_head width gs H). destruct f as [st w m|st w a b m|st r m]; [do 3 eexists; reflexivity| |].
  - specialize (Hn g _ Hg Hf). discriminate Hn.
  - exfalso. apply in_split in Hg as (x & y & Eg). apply in_split in Hf as (pre & post & E).
    destruct (proj1 (proj1 (groups_at _ _ _ _ H x g y Eg) pre _ post E)) as (_ & p & w & a & b & Ep & _).
    apply last_in in Ep. assert (K := Hn _ (Head st w a b m) (eq_ind_r (fun l => In _ l) (in_or_app x _ _ (or_introl Ep)) Eg)).
    cbn [g_frags is_head] in K. rewrite in_app_iff in K. specialize (K (or_intror (or_introl eq_refl))). discriminate K.
Qed.
(** The words of a line made of whole words. *)
Lemma items_words : forall fs, (forall f, In f fs -> exists st w m, f = Whole (F:=F) st w m) ->
  match items_of fs with [] => [] | it :: its => (i_sty it, i_text it) :: map (fun it => (i_sty it, tl (i_text it))) its end = flat_map frag_words fs /\
  flat_map token_words (flat_map frag_tokens fs) = flat_map frag_words fs /\
  (forall it, In it (tl (items_of fs)) -> exists w, i_text it = sp :: w).
Proof.
  intros fs H. assert (M : forall l, (forall f, In f l -> exists st w m, f = Whole (F:=F) st w m) ->
    map (fun it => (i_sty it, tl (i_text it))) (map (frag_item false) l) = flat_map frag_words l /\ flat_map token_words (flat_map frag_tokens l) = flat_map frag_words l /\
    (forall it, In it (map (frag_item false) l) -> exists w, i_text it = sp :: w)).
  { induction l as [|f l IH]; intros Hl; [split; [reflexivity|split; [reflexivity|intros ? []]]|].
    destruct (IH (fun f Hf => Hl f (or_intror Hf))) as (A & B & C). destruct (Hl f (or_introl eq_refl)) as (st & w & m & ->). cbn. rewrite A, B.
    split; [reflexivity|split; [reflexivity|]]. intros it [<-|Hi]; [exists w; reflexivity|exact (C it Hi)]. }
  destruct fs as [|f fs]; [split; [reflexivity|split; [reflexivity|intros ? []]]|].
  destruct (M fs (fun f Hf => H f (or_intror Hf))) as (A & B & C). destruct (H f (or_introl eq_refl)) as (st & w & m & ->). cbn [items_of]. cbn. rewrite A, B.
  split; [reflexivity|split; [reflexivity|exact C]].
Qed.
Lemma group_words : forall width gs, groups_ok (fun _ => []) width None gs -> forall lines, Forall2 is_line lines gs ->
  flat_map line_words lines = flat_map token_words (flat_map group_tokens gs) /\ Forall spaced lines.
Proof.
  intros width gs H lines L. assert (P := no_parts width gs H). clear H. induction L as [|l g lines gs [L1 _] L IH]; [split; [reflexivity|constructor]|].
  destruct (IH (fun g f Hg => P g f (or_intror Hg))) as [A B].
  destruct (items_words (g_frags g) (fun f Hf => P g f (or_introl eq_refl) Hf)) as (I1 & I2 & I3). split.
  - cbn [flat_map]. rewrite A, flat_map_app. f_equal. unfold line_words. rewrite L1, I1. unfold group_tokens. rewrite flat_map_app, I2.
    destruct (g_end g); cbn; rewrite app_nil_r; reflexivity.
  - constructor; [|exact B]. unfold spaced. rewrite L1. exact I3.
Qed.

Hypothesis Hpage : page_stable (eng:=eng).
Lemma lines_words : forall iss width sty (s : PS), let '(lines, _) := textLines mut iss width sty s in
  flat_map line_words lines = flat_map (instr_words mut (currentPage (ps_eng s)) sty) iss /\ Forall spaced lines.
Proof.
  intros iss width sty s. destruct (textLines_rules mut Hpage iss width sty s) as (lines & gs & -> & L & [B1 B2 B3]).
  destruct (group_words width gs B2 lines L) as [A B]. split; [|exact B]. rewrite A, B1. apply tokens_words.
Qed.

(** ** Lines fit *)
Lemma items_length : forall l : list (frag F), List.length (items_of l) = List.length l.
Proof. intros [|f l]; [reflexivity|]. cbn. rewrite map_length. reflexivity. Qed.
Lemma two_frags : forall l : list (frag F), 2 <= List.length l -> exists pre f, l = pre ++ [f] /\ pre <> [].
Proof.
  intros l H. destruct l as [|f l] using rev_ind; [cbn in H; lia|]. exists l, f. split; [reflexivity|]. rewrite app_length in H. cbn in H. destruct l; [cbn in H; lia|discriminate].
Qed.
Lemma lines_fit : forall iss width sty (s : PS), let '(lines, _) := textLines mut iss width sty s in
  forall l, In l lines -> 2 <= List.length (l_items l) -> leb width (l_width l) = false.
Proof.
  intros iss width sty s. destruct (textLines_rules mut Hpage iss width sty s) as (lines & gs & -> & L & [B1 B2 B3]). intros l Hl Hn.
  destruct (Forall2_in_l _ _ _ _ _ L l Hl) as (g & Hg & L1 & L2). rewrite L1, items_length in Hn. destruct (two_frags _ Hn) as (pre & f & E & Hp).
  destruct (no_parts width gs B2 g f Hg ltac:(rewrite E; apply in_or_app; right; left; reflexivity)) as (st & w & m & ->).
  destruct (frag_in_group _ _ _ _ B2 g pre _ [] Hg E) as (p & Hf). rewrite L2, E. unfold total. rewrite total_snoc.
  destruct pre as [|f0 pre]; [congruence|]. exact Hf.
Qed.

(** ** Blank lines *)
Section Blank.
Variables (hyph : bytes -> list bytes) (width : F) (ts : list (token F)) (gs : list (group F)).
Hypothesis Hfit : forall st w m, In (TWord st w m) ts -> overflows width zero w m = false.
Hypothesis B : broken_into hyph width ts gs.
Lemma blank_broken : forall g, In g gs -> g_frags g = [] -> g_end g = Broken.
Proof.
  intros g Hg E. destruct B as [B1 B2 B3]. apply in_split in Hg as (a & b & Eg). destruct g as [fs e]. cbn in *. subst fs. destruct (B3 a _ b Eg) as [E1 E2]. cbn in E1, E2.
  destruct e; [|reflexivity|destruct (E1 eq_refl) as [_ K]; congruence]. exfalso. destruct b as [|g' b]; [exact (E2 eq_refl eq_refl)|].
  assert (G := groups_at _ _ _ _ B2 (a ++ [mkGroup [] Wrapped]) g' b ltac:(rewrite Eg, <- app_assoc; reflexivity)). rewrite last_snoc in G. destruct G as [G1 G2].
  cbn in G2. destruct G2 as (st & w & m & fs & Ef). destruct (G1 [] _ fs Ef) as [[G _] _]. change (total (F:=F) []) with (@zero F) in G.
  rewrite (Hfit st w m) in G; [discriminate G|]. rewrite <- B1, Eg. rewrite flat_map_app. apply in_or_app. right. cbn [flat_map group_tokens].
  apply in_or_app. right. apply in_or_app. left. unfold group_tokens. rewrite Ef. left. reflexivity.
Qed.
End Blank.
Lemma broken_token : forall gs g, In g gs -> g_end g = Broken -> In TBreak (flat_map (group_tokens (F:=F)) gs).
Proof. intros gs g Hg E. apply in_flat_map. exists g. split; [exact Hg|]. unfold group_tokens. rewrite E. apply in_or_app. right. left. reflexivity. Qed.
Lemma lines_blank : forall iss width sty (s : PS), words_fit mut false (currentPage (ps_eng s)) sty iss (ps_eng s) width ->
  ~ In ILineBreak iss -> let '(lines, _) := textLines mut iss width sty s in Forall (fun l => l_items l <> []) lines.
Proof.
  intros iss width sty s Hw Hb. destruct (textLines_rules mut Hpage iss width sty s) as (lines & gs & -> & L & B). apply Forall_forall. intros l Hl E.
  destruct (Forall2_in_l _ _ _ _ _ L l Hl) as (g & Hg & L1 & _). rewrite E in L1. symmetry in L1. apply items_empty in L1.
  assert (K := blank_broken _ _ _ _ Hw B g Hg L1). apply Hb, (tokens_break false (currentPage (ps_eng s)) sty iss (ps_eng s)). destruct B as [B1 _ _]. rewrite <- B1. exact (broken_token gs g Hg K).
Qed.
Lemma lines_blank_rules : forall iss width sty (s : PS), words_fit mut false (currentPage (ps_eng s)) sty iss (ps_eng s) width ->
  let '(lines, _) := textLines mut iss width sty s in
  exists gs, Forall2 is_line lines gs /\ broken_into (fun _ => []) width (tokens mut false (currentPage (ps_eng s)) sty iss (ps_eng s)) gs /\
    Forall2 (fun l g => l_items l = [] -> g_end g = Broken) lines gs.
Proof.
  intros iss width sty s Hw. destruct (textLines_rules mut Hpage iss width sty s) as (lines & gs & -> & L & B). exists gs. split; [exact L|]. split; [exact B|].
  assert (K := blank_broken _ _ _ _ Hw B). clear B. induction L as [|l g lines gs [L1 _] L IH]; constructor.
  - intros E. apply K; [left; reflexivity|]. rewrite E in L1. symmetry in L1. apply items_empty. exact L1.
  - apply IH. intros g' Hg'. apply K. right. exact Hg'.
Qed.

(** ** Letters of block text *)
Section Letters.
Variables (hyph : bytes -> list bytes) (width : F).
Definition core (f : frag F) : bytes := match f with Whole _ w _ => w | Head _ _ a _ _ => List.concat a | Tail _ r _ => r end.
Definition word (f : frag F) : bytes := match f with Whole _ w _ | Head _ w _ _ _ => w | Tail _ _ _ => [] end.
Definition cores (l : list (frag F)) : bytes := flat_map core l.
Definition ends_in_head (l : list (frag F)) : bool := match rev l with f :: _ => is_head f | [] => false end.
Definition pending (l : list (frag F)) : bytes := match rev l with Head _ _ _ b _ :: _ => List.concat b | _ => [] end.
Definition pend (p : option (group F)) : bytes := match p with Some g => pending (g_frags g) | None => [] end.
Lemma unspaced_app : forall a b, unspaced (a ++ b) = unspaced a ++ unspaced b.
Proof. intros. apply filter_app. Qed.
Lemma items_letters : forall b fs, unspaced (flat_map i_text (match b with true => items_of fs | false => map (frag_item false) fs end)) =
  flat_map (fun f => unspaced (core f) ++ if is_head f then ["-"%char] else []) fs.
Proof.
  assert (One : forall b f, unspaced (i_text (frag_item b f)) = unspaced (core f) ++ if is_head f then ["-"%char] else []).
  { intros b [st w m|st w a b' m|st r m]; cbn [frag_item i_text core is_head]; try (destruct b; rewrite app_nil_r; reflexivity).
    unfold head_text. change (sp :: List.concat a ++ ["-"%char]) with ([sp] ++ List.concat a ++ ["-"%char]). rewrite !unspaced_app. reflexivity. }
  assert (M : forall fs, unspaced (flat_map i_text (map (frag_item false) fs)) = flat_map (fun f => unspaced (core f) ++ if is_head f then ["-"%char] else []) fs).
  { induction fs as [|f fs IH]; [reflexivity|]. cbn [map flat_map]. rewrite unspaced_app, One, IH. reflexivity. }
  intros [|] fs; [|apply M]. destruct fs as [|f fs]; [reflexivity|]. cbn [items_of flat_map]. rewrite unspaced_app, One, M. reflexivity.
Qed.
Lemma letters_split : forall fs : list (frag F), (forall pre f post, fs = pre ++ f :: post -> is_head f = true -> post = []) ->
  flat_map (fun f => unspaced (core f) ++ if is_head f then ["-"%char] else []) fs = if ends_in_head fs then unspaced (cores fs) ++ ["-"%char] else unspaced (cores fs).
Proof.
  intros fs H. destruct fs as [|f fs] using rev_ind; [reflexivity|]. clear IHfs. unfold ends_in_head. rewrite rev_app_distr. cbn [rev app].
  unfold cores. rewrite !flat_map_app, !flat_one, unspaced_app.
  assert (E : forall l, (forall x, In x l -> is_head x = false) -> flat_map (fun f => unspaced (core f) ++ if is_head f then ["-"%char] else []) l = unspaced (flat_map core l)).
  { induction l as [|x l IH]; intros Hl; [reflexivity|]. cbn [flat_map]. rewrite unspaced_app, (IH (fun y Hy => Hl y (or_intror Hy))), (Hl x (or_introl eq_refl)), app_nil_r. reflexivity. }
  rewrite E; [destruct (is_head f); rewrite ?app_nil_r, ?app_assoc; reflexivity|].
  intros x Hx. destruct (is_head x) eqn:Eh; [|reflexivity]. apply in_split in Hx as (pre & post & ->). rewrite <- app_assoc in H. cbn in H.
  specialize (H pre x (post ++ [f]) eq_refl Eh). destruct post; discriminate H.
Qed.
Lemma words_of_tokens : forall l : list (frag F), flat_map snd (flat_map token_words (flat_map frag_tokens l)) = flat_map word l.
Proof. induction l as [|[] l IH]; [reflexivity|..]; cbn; rewrite IH; reflexivity. Qed.

(** One line: its letters and what is pending after it are what was pending before and its words. *)
Lemma plain_cores : forall l : list (frag F), (forall pre f post, l = pre ++ f :: post -> (is_head f = true -> post = []) /\ match f with Tail _ _ _ => False | _ => True end /\
    match f with Head _ w a b _ => List.concat a ++ List.concat b = w | _ => True end) ->
  cores l ++ pending l = flat_map word l.
Proof.
  intros l H. destruct l as [|f l] using rev_ind; [reflexivity|]. clear IHl. unfold pending. rewrite rev_app_distr. cbn [rev app]. unfold cores. rewrite !flat_map_app, !flat_one.
  assert (E : forall k, (forall x, In x k -> is_head x = false /\ match x with Tail _ _ _ => False | _ => True end) -> flat_map core k = flat_map word k).
  { induction k as [|x k IH]; intros Hk; [reflexivity|]. cbn [flat_map]. rewrite (IH (fun y Hy => Hk y (or_intror Hy))). destruct (Hk x (or_introl eq_refl)) as [K1 K2]. destruct x; try reflexivity; [discriminate K1|contradiction]. }
  rewrite E.
  - rewrite <- app_assoc. f_equal. destruct (H l f [] eq_refl) as (_ & H2 & H3). destruct f; cbn [core word]; [apply app_nil_r|exact H3|contradiction].
  - intros x Hx. apply in_split in Hx as (pre & post & ->). destruct (H pre x (post ++ [f]) ltac:(rewrite <- app_assoc; reflexivity)) as (H1 & H2 & _).
    split; [|exact H2]. destruct (is_head x); [|reflexivity]. specialize (H1 eq_refl). destruct post; discriminate H1.
Qed.
Definition wrapped_head (p : option (group F)) : Prop := match p with Some g => ends_in_head (g_frags g) = true -> g_end g = Wrapped | None => True end.
Lemma head_last : forall l : list (frag F), ends_in_head l = true -> exists p st w a b m, l = p ++ [Head st w a b m].
Proof.
  intros l H. destruct l as [|f l] using rev_ind; [discriminate H|]. clear IHl. unfold ends_in_head in H. rewrite rev_app_distr in H. cbn in H. destruct f; try discriminate H.
  do 6 eexists. reflexivity.
Qed.
Lemma pending_head : forall p st w a b m, pending (p ++ [Head (F:=F) st w a b m]) = List.concat b.
Proof. intros. unfold pending. rewrite rev_app_distr. reflexivity. Qed.
Lemma pending_none : forall l, ends_in_head l = false -> pending l = [].
Proof. intros l H. unfold ends_in_head in H. unfold pending. destruct (rev l) as [|[] ?]; try reflexivity. discriminate H. Qed.
Lemma group_letters : forall prev g, group_ok hyph width prev g -> wrapped_head prev ->
  (forall st w m, In (TWord st w m) (group_tokens g) -> List.concat (hyph w) = w) ->
  cores (g_frags g) ++ pending (g_frags g) = pend prev ++ flat_map snd (flat_map token_words (group_tokens g)) /\ wrapped_head (Some g).
Proof.
  intros prev [fs e] [G1 G2] Hp Hl. cbn [g_frags] in *.
  assert (W : wrapped_head (Some (mkGroup fs e))).
  { intros H. cbn [g_frags g_end] in *. destruct (head_last _ H) as (p & st & w & a & b & m & ->). exact (proj2 (proj2 (G1 p _ [] eq_refl) eq_refl)). }
  split; [|exact W].
  assert (T : flat_map snd (flat_map token_words (group_tokens (mkGroup fs e))) = flat_map word fs).
  { unfold group_tokens. cbn [g_frags g_end]. rewrite flat_map_app, flat_map_app, words_of_tokens. destruct e; cbn; rewrite app_nil_r; reflexivity. }
  rewrite T.
  assert (Hd : forall pre f post, fs = pre ++ f :: post -> match f with Head _ w a b _ => List.concat a ++ List.concat b = w | _ => True end).
  { intros pre f post E. destruct f as [|st w a b m|]; try exact I. destruct (G1 pre _ post E) as [(_ & (D & _) & _) _]. transitivity (List.concat (hyph w)); [rewrite D; symmetry; apply concat_app|].
    apply (Hl st w m). unfold group_tokens. apply in_or_app. left. cbn [g_frags]. rewrite E, flat_map_app. apply in_or_app. right. left. reflexivity. }
  assert (Tl : forall pre st r m post, fs = pre ++ Tail st r m :: post -> pre = [] /\ r = pend prev).
  { intros pre st r m post E. destruct (G1 pre _ post E) as [(E1 & p & w & a & b & -> & ->) _]. split; [exact E1|]. cbn [pend g_frags]. rewrite pending_head. reflexivity. }
  destruct fs as [|f0 fs'].
  { rewrite app_nil_r. destruct prev as [[p ep]|]; [|reflexivity]. cbn [pend g_frags]. destruct (ends_in_head p) eqn:Eh; [|rewrite (pending_none _ Eh); reflexivity].
    exfalso. cbn in Hp. rewrite (Hp Eh) in G2. destruct (head_last _ Eh) as (q & st & w & a & b & m & ->). rewrite rev_app_distr in G2. cbn in G2. destruct G2 as (fs & G2). discriminate G2. }
  destruct f0 as [st w m|st w a b m|st r m].
  - rewrite plain_cores.
    + replace (pend prev) with (@nil ascii); [reflexivity|]. destruct prev as [[p ep]|]; [|reflexivity]. cbn [pend g_frags]. destruct (ends_in_head p) eqn:Eh; [|rewrite (pending_none _ Eh); reflexivity].
      exfalso. cbn in Hp. rewrite (Hp Eh) in G2. destruct (head_last _ Eh) as (q & ? & ? & ? & ? & ? & ->). rewrite rev_app_distr in G2. cbn in G2. destruct G2 as (fs & G2). discriminate G2.
    + intros pre f post E. split; [exact (fun h => proj1 (proj2 (G1 pre f post E) h))|]. split; [|exact (Hd pre f post E)].
      destruct f; try exact I. destruct (Tl _ _ _ _ _ E) as [-> _]. discriminate E.
  - rewrite plain_cores.
    + replace (pend prev) with (@nil ascii); [reflexivity|]. destruct prev as [[p ep]|]; [|reflexivity]. cbn [pend g_frags]. destruct (ends_in_head p) eqn:Eh; [|rewrite (pending_none _ Eh); reflexivity].
      exfalso. cbn in Hp. rewrite (Hp Eh) in G2. destruct (head_last _ Eh) as (q & ? & ? & ? & ? & ? & ->). rewrite rev_app_distr in G2. cbn in G2. destruct G2 as (fs & G2). discriminate G2.
    + intros pre f post E. split; [exact (fun h => proj1 (proj2 (G1 pre f post E) h))|]. split; [|exact (Hd pre f post E)].
      destruct f; try exact I. destruct (Tl _ _ _ _ _ E) as [-> _]. discriminate E.
  - destruct (Tl [] st r m fs' eq_refl) as [_ ->]. cbn [flat_map word app]. change (cores (Tail st (pend prev) m :: fs')) with (pend prev ++ cores fs').
    rewrite <- app_assoc. f_equal. rewrite <- plain_cores.
    + f_equal. unfold pending. cbn [rev]. destruct (rev fs'); reflexivity.
    + intros pre f post E. assert (E' : Tail st (pend prev) m :: fs' = (Tail st (pend prev) m :: pre) ++ f :: post) by (rewrite E; reflexivity).
      split; [exact (fun h => proj1 (proj2 (G1 _ f post E') h))|]. split; [|exact (Hd _ f post E')].
      destruct f; try exact I. destruct (Tl _ _ _ _ _ E') as [K _]. discriminate K.
Qed.
Lemma groups_letters : forall gs prev, groups_ok hyph width prev gs -> wrapped_head prev ->
  (forall st w m, In (TWord st w m) (flat_map group_tokens gs) -> List.concat (hyph w) = w) ->
  flat_map (fun g => cores (g_frags g)) gs ++ pend (last_or prev gs) = pend prev ++ flat_map snd (flat_map token_words (flat_map group_tokens gs)) /\ wrapped_head (last_or prev gs).
Proof.
  induction gs as [|g gs IH]; intros prev H Hp Hl.
  - cbn. unfold last_or. cbn. rewrite app_nil_r. split; [reflexivity|exact Hp].
  - destruct H as [H1 H2]. destruct (group_letters prev g H1 Hp) as [A B]; [intros st w m Hin; apply (Hl st w m); cbn; apply in_or_app; left; exact Hin|].
    destruct (IH (Some g) H2 B) as [C D]; [intros st w m Hin; apply (Hl st w m); cbn; apply in_or_app; right; exact Hin|].
    assert (L : last_or prev (g :: gs) = last_or (Some g) gs) by (unfold last_or; cbn [rev]; destruct (rev gs); reflexivity).
    rewrite L. split; [|exact D]. cbn [flat_map]. rewrite flat_map_app, flat_map_app, <- app_assoc, C. rewrite app_assoc. cbn [pend]. rewrite A, app_assoc. reflexivity.
Qed.
End Letters.

Lemma tokens_in : forall blank n sty iss (e : est eng) st w m, In (TWord st w m) (tokens mut blank n sty iss e) ->
  w = [] \/ In (st, w) (flat_map (instr_words mut n sty) iss).
Proof.
  intros blank n sty. induction iss as [|is iss IH]; intros e st w m H; [destruct H|].
  assert (K : forall st' ws (e : est eng), In (TWord st w m) match match ws with [] => if blank then [[]] else [] | _ => ws end with [] => tokens mut blank n sty iss e
     | ws => map (fun w => TWord st' w (textWidth (simple (ChangeFont (SFont st')) e))) ws ++ tokens mut blank n sty iss (simple (ChangeFont (SFont st')) e) end ->
     w = [] \/ In (st, w) (map (fun w => (st', w)) ws ++ flat_map (instr_words mut n sty) iss)).
  { intros st' ws e0 H0. destruct ws as [|w0 ws].
    - destruct blank; [|exact (IH _ _ _ _ H0)]. apply in_app_or in H0 as [H0|H0]; [|exact (IH _ _ _ _ H0)].
      destruct H0 as [H0|[]]. injection H0 as _ <- _. left. reflexivity.
    - apply in_app_or in H0 as [H0|H0].
      + right. apply in_or_app. left. apply in_map_iff in H0 as (w' & E & Hw). injection E as <- <- _. apply in_map_iff. exists w'. split; [reflexivity|exact Hw].
      + destruct (IH _ _ _ _ H0) as [L|L]; [left; exact L|right; apply in_or_app; right; exact L]. }
  cbn [tokens] in H. cbn [flat_map]. destruct is; cbn [reading] in H; cbn [instr_words app]; try exact (IH _ _ _ _ H).
  - exact (K _ _ _ H).
  - exact (K _ _ _ H).
  - destruct H as [H|H]; [discriminate H|exact (IH _ _ _ _ H)].
Qed.
Lemma lines_letters : forall hyph iss width sty (s : PS), lossless hyph mut (currentPage (ps_eng s)) sty iss ->
  let '(lines, _) := textLinesHyphenated mut hyph iss width sty s in
  exists ps, Forall2 (fun l p => unhyphenated l (fst p) (snd p)) lines ps /\
    flat_map snd ps = text_letters mut (currentPage (ps_eng s)) sty iss /\
    forall a p, ps = a ++ [p] -> fst p = false.
Proof.
  intros hyph iss width sty s [L0 L1]. destruct (textLinesHyphenated_rules mut hyph Hpage iss width sty s) as (lines & gs & -> & L & _ & [B1 B2 B3]).
  assert (Hl : forall st w m, In (TWord st w m) (flat_map group_tokens gs) -> List.concat (hyph w) = w).
  { intros st w m Hin. rewrite B1 in Hin. destruct (tokens_in _ _ _ _ _ _ _ _ Hin) as [->|Hin']; [exact L0|exact (L1 st w Hin')]. }
  destruct (groups_letters hyph width gs None B2 I Hl) as [G W]. cbn [pend app] in G. rewrite B1 in G.
  assert (Hend : forall a g, gs = a ++ [g] -> ends_in_head (g_frags g) = false).
  { intros a g Eg. destruct (ends_in_head (g_frags g)) eqn:E; [|reflexivity]. exfalso. apply (proj2 (B3 a g [] Eg) eq_refl). rewrite Eg, last_snoc in W. exact (W E). }
  assert (Hpend : pend (last_or None gs) = []).
  { destruct gs as [|g gs _] using rev_ind; [reflexivity|]. rewrite last_snoc. cbn [pend]. apply pending_none. exact (Hend gs g eq_refl). }
  rewrite Hpend, app_nil_r in G.
  exists (map (fun g => (ends_in_head (g_frags g), unspaced (cores (g_frags g)))) gs). split; [|split].
  - assert (Hh : forall g, In g gs -> forall pre f post, g_frags g = pre ++ f :: post -> is_head f = true -> post = []).
    { intros g Hg pre f post E. apply in_split in Hg as (x & y & Ex). exact (fun h => proj1 (proj2 (proj1 (groups_at _ _ _ _ B2 x g y Ex) pre f post E) h)). }
    clear - L Hh. induction L as [|l g lines gs [[L1 _] _] L IH]; cbn [map]; constructor.
    + cbn [fst snd]. unfold unhyphenated, line_letters. rewrite L1, (items_letters true). apply letters_split. apply Hh. left. reflexivity.
    + apply IH. intros g' Hg'. apply Hh. right. exact Hg'.
  - rewrite <- (tokens_letters true _ sty iss (ps_eng s)), <- G. clear. induction gs as [|g gs IH]; [reflexivity|]. cbn [map flat_map snd]. rewrite unspaced_app, IH. reflexivity.
  - intros a p E. destruct gs as [|g gs _] using rev_ind; [destruct a; discriminate E|]. rewrite map_app in E. apply app_inj_tail in E as [_ <-]. exact (Hend gs g eq_refl).
Qed.
End Thms.
