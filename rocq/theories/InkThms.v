(** Proofs about the letters a file puts on the pages (C97). *)
From Coq Require Import ZArith Lia Permutation.
From Verif Require Import GoStr GoStrFacts GoFmt Num Style StyleSpec StyleFacts Class ClassSpec ClassView ClassFacts Instr Xml Load LoadSpec LoadDocSpec LoadFacts LoadSim LoadTree LoadReads LoadThms
  Engine Lines LinesSpec LinesView Proc ProcSpec WriteSpec WriteThms OutputSpec OutputThms SameSpec InkSpec.
From Verif Require TextSpec TextFacts.
Local Open Scope nat_scope.
Local Notation nonblank := TextSpec.nonblank.
Local Notation occurs := TextSpec.occurs.

(** ** Letters *)
Lemma nonblank_app : forall a b, nonblank (a ++ b) = nonblank a ++ nonblank b.
Proof. intros. apply filter_app. Qed.
Lemma nonblank_concat : forall l, nonblank (List.concat l) = flat_map nonblank l.
Proof. induction l as [|a l IH]; [reflexivity|]. cbn [List.concat flat_map]. rewrite nonblank_app, IH. reflexivity. Qed.
Lemma nonblank_unspaced : forall s, nonblank (unspaced s) = nonblank s.
Proof.
  induction s as [|c s IH]; [reflexivity|]. cbn. destruct (Ascii.eqb_spec c sp) as [->|H]; cbn; [exact IH|].
  destruct (negb (TextSpec.blankb c)); [f_equal|]; exact IH.
Qed.
Lemma nonblank_words : forall page t, ~ occurs ($"{cp}") t -> nonblank (List.concat (text_words page t)) = nonblank t.
Proof.
  intros page t H. unfold text_words. unfold TextSpec.words at 1. rewrite TextFacts.words_nonblank by constructor. cbn [rev app].
  rewrite <- TextFacts.rectified_correct, TextFacts.rectified_nonblank. f_equal. unfold replace_all. destruct (beqb _ _); [reflexivity|]. cbn [list_ascii_of_string]. apply replace_go_noocc; [discriminate|exact H].
Qed.
Lemma hyphenated_refl : forall s, hyphenated s s.
Proof. induction s; constructor; assumption. Qed.
Lemma hyphenated_app : forall a a' b b', hyphenated a a' -> hyphenated b b' -> hyphenated (a ++ b) (a' ++ b').
Proof. intros a a' b b' H Hb. induction H; cbn; [exact Hb|constructor; assumption|constructor; assumption]. Qed.
Lemma hyphenated_nonblank : forall s t, hyphenated s t -> hyphenated (nonblank s) (nonblank t).
Proof.
  intros s t H. induction H as [|c s t _ IH|s t _ IH]; [constructor| |].
  - cbn. destruct (negb (TextSpec.blankb c)); [constructor|]; exact IH.
  - change (nonblank ("-"%char :: t)) with ("-"%char :: nonblank t). constructor. exact IH.
Qed.

Section Env.
Context {F : Num} (env : Env F).
Local Notation instr := (instr F).
Local Notation Styles := (Styles F).
Local Notation text_out := (text_out env).

(** ** The letters of instructions *)
Definition instr_ink (i : instr) : bytes := match i with ITextBlock t | IParagraph _ t => nonblank t | _ => [] end.
Definition iss_ink : list instr -> bytes := flat_map instr_ink.
Definition box_ink (i : instr) : bytes := match i with IBox _ b => iss_ink b | _ => [] end.
Definition xcell_ink (c : xcell F) : bytes := match c with XCell _ _ _ iss => iss_ink iss ++ flat_map box_ink iss end.
Definition xrow_ink (r : xrow F) : bytes := match r with XRow _ cells => flat_map xcell_ink cells end.
Definition top_ink (i : instr) : bytes :=
  match i with IText _ b | IBox _ b => iss_ink b | ITable (XTable _ _ rows) => flat_map xrow_ink rows | _ => [] end.
Definition clean_instr (i : instr) : Prop := match i with ITextBlock t | IParagraph _ t => ~ occurs ($"{cp}") t | _ => True end.
Definition clean : list instr -> Prop := Forall clean_instr.

Lemma words_ink : forall page sty iss, clean iss -> nonblank (List.concat (words env page sty iss)) = iss_ink iss.
Proof.
  intros page sty iss H. unfold words, iss_ink. induction H as [|i iss Hi _ IH]; [reflexivity|].
  cbn [flat_map]. rewrite map_app, concat_app, nonblank_app, IH. f_equal.
  destruct i; try reflexivity; cbn [instr_words instr_ink]; rewrite map_map; cbn [snd]; rewrite map_id; apply nonblank_words; exact Hi.
Qed.
Lemma out_plain : forall sty iss out, clean iss -> HAlign (SAlign sty) <> $"block" -> text_out sty iss out -> nonblank (List.concat out) = iss_ink iss.
Proof.
  intros sty iss out Hc Hb (page & H). unfold text_out_on in H. destruct (beqb (HAlign (SAlign sty)) ($"block")) eqn:E; [apply beqb_eq in E; contradiction|].
  rewrite <- (words_ink page sty iss Hc), <- H. rewrite !nonblank_concat. clear. induction out as [|o out IH]; [reflexivity|]. cbn [map flat_map]. rewrite IH, nonblank_unspaced. reflexivity.
Qed.
Lemma out_hyphened : forall sty iss out, (forall w, List.concat (e_hyph env w) = w) -> clean iss -> text_out sty iss out -> hyphenated (iss_ink iss) (nonblank (List.concat out)).
Proof.
  intros sty iss out Hh Hc H. destruct (beqb (HAlign (SAlign sty)) ($"block")) eqn:E.
  2:{ rewrite (out_plain sty iss out Hc); [apply hyphenated_refl| |exact H]. intro K. rewrite K in E. discriminate E. }
  destruct H as (page & H). unfold text_out_on in H. rewrite E in H. destruct H as (ps & H1 & H2 & _); [split; [apply Hh|intros; apply Hh]|].
  rewrite <- (words_ink page sty iss Hc), <- H2, <- (nonblank_unspaced (List.concat out)), H1. apply hyphenated_nonblank. clear.
  induction ps as [|[b w] ps IH]; [constructor|]. cbn [flat_map fst snd]. apply hyphenated_app; [|exact IH]. destruct b; [|apply hyphenated_refl].
  rewrite <- (app_nil_r w) at 1. apply hyphenated_app; [apply hyphenated_refl|]. repeat constructor.
Qed.

(** ** From the instructions to the output *)
Section Out.
Variable Q : Styles -> Prop.
Variable R : bytes -> bytes -> Prop.
Hypothesis R_nil : R [] [].
Hypothesis R_app : forall a a' b b', R a a' -> R b b' -> R (a ++ b) (a' ++ b').
Hypothesis Q_ambient : forall sty, ambient_style sty -> Q sty.
Hypothesis R_text : forall sty iss out, Q sty -> clean iss -> text_out sty iss out -> R (iss_ink iss) (nonblank (List.concat out)).
Definition goodst (st : Styled F) : Prop := forall s, Q s -> Q (e_mut env st s) /\ forall sel, Q (e_mut_sel env sel st s).
Definition ok_box (i : instr) : Prop := match i with IBox st b => goodst st /\ clean b | _ => True end.
Definition ok_cell (c : xcell F) : Prop := match c with XCell st _ _ iss => goodst st /\ clean iss /\ Forall ok_box iss end.
Definition ok_row (r : xrow F) : Prop := match r with XRow st cells => goodst st /\ Forall ok_cell cells end.
Definition ok_top (i : instr) : Prop :=
  match i with
  | IText st b | IBox st b => goodst st /\ clean b
  | ITable (XTable st n rows) => goodst st /\ n = 0%Z /\ Forall ok_row rows
  | _ => True end.

Definition rendered (l : list styled_text) (x : bytes) : Prop :=
  forall outs, Forall2 (fun p o => text_out (fst p) (snd p) o) l outs -> R x (nonblank (List.concat (List.concat outs))).
Lemma rendered_nil : rendered [] [].
Proof. intros outs H. inversion H. exact R_nil. Qed.
Lemma rendered_app : forall l l' x x', rendered l x -> rendered l' x' -> rendered (l ++ l') (x ++ x').
Proof.
  intros l l' x x' H H' outs Ho. apply Forall2_app_inv_l in Ho as (o1 & o2 & H1 & H2 & ->). rewrite !concat_app, nonblank_app. apply R_app; [apply H|apply H']; assumption.
Qed.
Lemma rendered_one : forall sty iss, Q sty -> clean iss -> rendered [(sty, iss)] (iss_ink iss).
Proof.
  intros sty iss Hq Hc outs H. inversion H as [|? o ? ? Ho Hn]; subst. inversion Hn; subst. cbn [List.concat]. rewrite app_nil_r. exact (R_text _ _ _ Hq Hc Ho).
Qed.
Lemma rendered_blocks : forall inks blocks, List.length inks <= List.length blocks ->
  (forall i b, nth_error blocks i = Some b -> rendered b (nth i inks [])) -> rendered (List.concat blocks) (List.concat inks).
Proof.
  induction inks as [|x inks IH]; intros blocks L H.
  - cbn [List.concat]. clear L. induction blocks as [|b blocks IHb]; [apply rendered_nil|]. cbn [List.concat]. apply (rendered_app _ _ [] []); [exact (H 0 b eq_refl)|].
    apply IHb. intros i b' Hb. assert (G := H (S i) b' Hb). destruct i; exact G.
  - destruct blocks as [|b blocks]; [cbn in L; lia|]. cbn [List.concat]. apply rendered_app; [exact (H 0 b eq_refl)|]. apply IH; [cbn in L; lia|].
    intros i b' Hb. exact (H (S i) b' Hb).
Qed.
Lemma boxes_rendered : forall iss l, shows_boxes env iss l -> Forall ok_box iss -> rendered l (flat_map box_ink iss).
Proof.
  intros iss l H. induction H as [|st b iss l sty Ha _ IH|i iss l Hi _ IH]; intro Hok; [apply rendered_nil| |]; inversion Hok as [|? ? Ho Hr]; subst; cbn [flat_map].
  - destruct Ho as [Hg Hc]. apply (rendered_app [_] l); [apply rendered_one; [apply Hg, Q_ambient, Ha|exact Hc]|exact (IH Hr)].
  - replace (box_ink i) with (@nil ascii); [exact (IH Hr)|]. destruct i; try reflexivity. exfalso. exact (Hi _ _ eq_refl).
Qed.
Lemma pick : forall st sty (a b : bool) s1 s2, goodst st -> Q sty ->
  Q (if a then e_mut_sel env s1 st sty else if b then e_mut_sel env s2 st sty else e_mut env st sty).
Proof. intros st sty a b s1 s2 Hg Hq. destruct a; [apply Hg, Hq|destruct b; apply Hg, Hq]. Qed.
Lemma cell_rendered : forall row n k c l, Q row -> ok_cell c -> shows_cell env row n k c l -> rendered l (xcell_ink c).
Proof.
  intros row n k [st cs rs iss] l Hq (Hg & Hc & Hb) (l' & -> & H). unfold xcell_ink. apply (rendered_app [_] l').
  - apply rendered_one; [apply pick; assumption|exact Hc].
  - apply boxes_rendered; assumption.
Qed.
Lemma nth_map_some : forall {A} (f : A -> bytes) l i x, nth_error l i = Some x -> nth i (map f l) [] = f x.
Proof. intros A f l i x H. apply nth_error_nth. rewrite nth_error_map, H. reflexivity. Qed.
Lemma row_rendered : forall tab n i r l, Q tab -> ok_row r -> shows_row env tab n i r l -> rendered l (xrow_ink r).
Proof.
  intros tab n i [st cells] l Hq [Hg Hc] (ls & -> & L & H). unfold xrow_ink. rewrite flat_map_concat_map. apply rendered_blocks; [rewrite map_length; lia|].
  intros k b Hb. destruct (nth_error cells k) as [c|] eqn:E.
  - rewrite (nth_map_some _ _ _ _ E). eapply cell_rendered; [|rewrite Forall_forall in Hc; apply Hc; eapply nth_error_In; exact E|exact (H k c b E Hb)]. apply pick; assumption.
  - exfalso. apply nth_error_None in E. assert (k < List.length ls) by (apply nth_error_Some; congruence). lia.
Qed.
Lemma top_rendered : forall i l, ok_top i -> shows env i l -> rendered l (top_ink i).
Proof.
  intros i l Hok H. destruct i as [st| | | |st b|st b|st src|t|st t| | |[st n rows]| | | | |]; cbn in H; try (subst l; exact rendered_nil).
  - destruct H as (sty & Ha & ->). destruct Hok as [Hg Hc]. apply rendered_one; [apply Hg, Q_ambient, Ha|exact Hc].
  - destruct H as (sty & Ha & ->). destruct Hok as [Hg Hc]. apply rendered_one; [apply Hg, Q_ambient, Ha|exact Hc].
  - destruct Hok as (Hg & -> & Hr). destruct H as (sty & blocks & Ha & -> & L & H). cbn [top_ink]. rewrite flat_map_concat_map.
    assert (Qs := proj1 (Hg sty (Q_ambient _ Ha))). apply rendered_blocks; [rewrite map_length; exact L|].
    intros i b Hb. destruct (H i b Hb) as (hs & r & -> & Hs & Hh).
    assert (hs = []) as -> by (destruct Hh as [Hh|(_ & Hh & _)]; [exact Hh|]; cbn [Z.to_nat Nat.min] in Hh; destruct hs; [reflexivity|discriminate Hh]).
    cbn [List.concat app]. unfold shows_nth in Hs. destruct (nth_error rows i) as [row|] eqn:E.
    + rewrite (nth_map_some _ _ _ _ E). eapply row_rendered; [exact Qs| |exact Hs]. rewrite Forall_forall in Hr. apply Hr. eapply nth_error_In. exact E.
    + subst r. apply nth_error_None in E. rewrite nth_overflow by (rewrite map_length; exact E). exact rendered_nil.
Qed.
Lemma texts_rendered : forall iss out, Forall ok_top iss -> writes_texts env iss out -> R (flat_map top_ink iss) (nonblank (List.concat out)).
Proof.
  intros iss out Hok (ls & outs & Hs & Ho & ->). assert (G : rendered (List.concat ls) (flat_map top_ink iss)); [|apply G; exact Ho].
  clear Ho. induction Hs as [|i l iss ls Hi _ IH]; [exact rendered_nil|]. inversion Hok; subst. cbn [List.concat flat_map]. apply rendered_app; [apply top_rendered; assumption|apply IH; assumption].
Qed.

(** ** From the tree to the instructions *)
Variables parse_float convert_float : bytes -> option F.
Variable order : nat -> bool -> nat -> rawmap -> rawmap.
Hypothesis Horder : forall pos second, map_orders (order pos second).
Local Notation styled := (decode_styled F parse_float convert_float order).
Local Notation reads := (reads parse_float styled).
Local Notation strict := (strict parse_float styled).
Local Notation loose := (loose parse_float styled).
Definition fit (ts : list node) : Prop := plain_section parse_float convert_float ts /\
  forall p n a ks st, below ts (Elem p n a ks) -> styled p true a none = Some st -> goodst st.
Lemma fit_sub : forall ts ts', (forall t, below ts' t -> below ts t) -> fit ts -> fit ts'.
Proof. intros ts ts' H [[P1 P2 P3 P4 P5] G]. split; [constructor|]; eauto. Qed.
Lemma below_cons : forall t ts x, below ts x -> below (t :: ts) x.
Proof. intros t ts x H. destruct H; [apply Below_here; right; assumption|eapply Below_deep; [right; eassumption|assumption]]. Qed.
Lemma fit_tail : forall t ts, fit (t :: ts) -> fit ts.
Proof. intros t ts. apply fit_sub. intros x Hx. apply below_cons. exact Hx. Qed.
Lemma fit_kids : forall p n a ks ts, fit (Elem p n a ks :: ts) -> fit ks.
Proof. intros p n a ks ts. apply fit_sub. intros x Hx. eapply Below_deep; [left; reflexivity|exact Hx]. Qed.
Lemma fit_good : forall p n a ks ts st, fit (Elem p n a ks :: ts) -> styled p true a none = Some st -> goodst st.
Proof. intros p n a ks ts st [_ G]. apply (G p n a ks). apply Below_here. left. reflexivity. Qed.
Lemma fit_chars : forall t ts, fit (Chars t :: ts) -> ~ occurs ($"{cp}") t.
Proof. intros t ts [P _]. apply (plain_chars _ _ _ P). apply Below_here. left. reflexivity. Qed.
Lemma fit_p : forall p a ks ts, fit (Elem p ($"p") a ks :: ts) -> ~ occurs ($"{cp}") (chars_of ks).
Proof. intros p a ks ts [P _]. apply (plain_p _ _ _ P p a). apply Below_here. left. reflexivity. Qed.
Lemma fit_styled : forall p n a ks ts st, fit (Elem p n a ks :: ts) -> styled p true a st <> None.
Proof.
  intros p n a ks ts st [P _] E. unfold decode_styled in E. apply (attrs_none F parse_float convert_float (order p true) (Horder p true)) in E.
  apply Exists_exists in E as (v & Hv & Hn). apply Hn. eapply (plain_style _ _ _ P); [apply Below_here; left; reflexivity|exact Hv].
Qed.
Lemma fit_leaf : forall p n a ks ts, fit (Elem p n a ks :: ts) -> In n [$"lf"; $"setx"; $"sety"] -> ks = [].
Proof. intros p n a ks ts [P _]. apply (plain_leaf _ _ _ P p n a). apply Below_here. left. reflexivity. Qed.
Lemma fit_table : forall p a ks ts, fit (Elem p ($"table") a ks :: ts) -> attr_value between0_10 ($"repeatheader") a 0%Z = Some 0%Z.
Proof. intros p a ks ts [P _]. unfold attr_value. rewrite (plain_table _ _ _ P p a ks); [reflexivity|apply Below_here; left; reflexivity]. Qed.

Lemma clean_text : forall t ts, fit (Chars t :: ts) -> clean (text (F:=F) t) /\ iss_ink (text t) = nonblank t.
Proof.
  intros t ts H. apply fit_chars in H. unfold text. destruct t as [|c t]; [split; [constructor|reflexivity]|]. split; [repeat constructor; exact H|].
  unfold iss_ink. cbn [flat_map instr_ink]. apply app_nil_r.
Qed.
Ltac readings H := inversion H; subst; clear H;
  repeat match goal with
  | E : option_map _ ?o = _ |- _ => let K := fresh "E" in destruct o eqn:K; cbn [option_map] in E; [|discriminate E]
  | E : match ?o with Some _ => _ | None => None end = Some _ |- _ => let K := fresh "E" in destruct o eqn:K; [|discriminate E]
  end;
  repeat match goal with E : Some _ = Some _ |- _ => injection E as E; subst end.
Lemma run_strict : forall ks iss, strict ks iss -> fit ks -> clean iss /\ iss_ink iss = run_ink ks.
Proof.
  intros ks iss H. induction H as [|ts l _ IH|t ts l _ IH|t i ts l Hr _ IH]; intro Hf.
  - split; [constructor|reflexivity].
  - exact (IH (fit_tail _ _ Hf)).
  - destruct (IH (fit_tail _ _ Hf)) as [C E]. destruct (clean_text _ _ Hf) as [C' E']. split; [apply Forall_app; split; assumption|].
    unfold iss_ink in *. rewrite flat_map_app, E, E'. reflexivity.
  - destruct (IH (fit_tail _ _ Hf)) as [C E].
    assert (K : clean_instr i /\ instr_ink i = run_ink [t]); [|destruct K as [K1 K2]; split; [constructor; assumption|]].
    2:{ change (iss_ink (i :: l)) with (instr_ink i ++ iss_ink l). change (t :: ts) with ([t] ++ ts). unfold run_ink in *. rewrite flat_map_app, E, K2. reflexivity. }
    readings Hr; try (split; [exact I|reflexivity]). cbn [clean_instr instr_ink]. split; [exact (fit_p _ _ _ _ Hf)|]. unfold run_ink. cbn [flat_map].
    change (beqb ($"p") ($"p")) with true. cbv iota. symmetry. apply app_nil_r.
Qed.
Lemma each_app : forall n f a b, each n f (a ++ b) = each n f a ++ each n f b.
Proof. intros. apply flat_map_app. Qed.
Lemma run_app : forall a b, run_ink (a ++ b) = run_ink a ++ run_ink b.
Proof. intros. apply flat_map_app. Qed.
Lemma run_loose : forall ks iss, loose ks iss -> fit ks ->
  clean iss /\ Forall ok_box iss /\ iss_ink iss = run_ink (flat_map unwrap ks) /\ flat_map box_ink iss = each ($"box") run_ink (flat_map unwrap ks).
Proof.
  intros ks iss H. induction H as [|ts l _ IH|t ts l _ IH|t i ts l Hr _ IH|t ts l Hr _ IH|p n a kids ts l1 l2 Ho Hk IHk _ IH]; intro Hf.
  - repeat split; constructor.
  - exact (IH (fit_tail _ _ Hf)).
  - destruct (IH (fit_tail _ _ Hf)) as (C & B & E & G). destruct (clean_text _ _ Hf) as [C' E'].
    assert (T : Forall ok_box (text (F:=F) t) /\ flat_map box_ink (text (F:=F) t) = []) by (unfold text; destruct t; split; repeat constructor).
    destruct T as [T1 T2]. split; [apply Forall_app; split; assumption|]. split; [apply Forall_app; split; assumption|].
    unfold iss_ink in *. rewrite !flat_map_app, T2, E, E', G. split; reflexivity.
  - destruct (IH (fit_tail _ _ Hf)) as (C & B & E & G).
    assert (K : clean_instr i /\ ok_box i /\ unwrap t = [t] /\ instr_ink i = run_ink [t] /\ box_ink i = each ($"box") run_ink [t]).
    2:{ destruct K as (K1 & K2 & K3 & K4 & K5). split; [constructor; assumption|]. split; [constructor; assumption|]. cbn [flat_map]. rewrite K3.
        change (iss_ink (i :: l)) with (instr_ink i ++ iss_ink l). rewrite run_app, each_app, E, G, K4, K5. split; reflexivity. }
    readings Hr; try (repeat split; exact I).
    + cbn [clean_instr instr_ink]. split; [exact (fit_p _ _ _ _ Hf)|]. split; [exact I|]. split; [reflexivity|]. split; [|reflexivity]. unfold run_ink. cbn [flat_map].
      change (beqb ($"p") ($"p")) with true. cbv iota. symmetry. apply app_nil_r.
    + split; [exact I|]. match goal with S : strict _ _ |- _ => destruct (run_strict _ _ S (fit_kids _ _ _ _ _ Hf)) as [C' E'] end.
      split; [split; [eapply fit_good; eassumption|exact C']|]. split; [reflexivity|]. split; [reflexivity|].
      cbn [box_ink]. rewrite E'. unfold each. cbn [flat_map]. change (beqb ($"box") ($"box")) with true. cbv iota. symmetry. apply app_nil_r.
  - destruct (IH (fit_tail _ _ Hf)) as (C & B & E & G). split; [exact C|]. split; [exact B|]. cbn [flat_map]. rewrite run_app, each_app, E, G.
    assert (K : unwrap t = [t] /\ run_ink [t] = [] /\ each ($"box") run_ink [t] = []); [|destruct K as (-> & -> & ->); split; reflexivity].
    inversion Hr; subst; try (repeat split; reflexivity);
      match goal with E : option_map _ ?o = None |- _ => destruct o eqn:K; [discriminate E|]; exfalso; exact (fit_styled _ _ _ _ _ _ Hf K) end.
  - destruct (IH (fit_tail _ _ Hf)) as (C & B & E & G). destruct (IHk (fit_kids _ _ _ _ _ Hf)) as (C' & B' & E' & G').
    split; [apply Forall_app; split; assumption|]. split; [apply Forall_app; split; assumption|].
    cbn [flat_map]. unfold iss_ink in *. rewrite run_app, each_app, !flat_map_app, E, G, E', G'. destruct Ho as [Hn|(k & Hn & _)].
    + cbn [unwrap]. replace (existsb (beqb n) known) with false; [split; reflexivity|]. symmetry. destruct (existsb (beqb n) known) eqn:Ex; [|reflexivity].
      apply existsb_exists in Ex as (m & Hm & Em). apply beqb_eq in Em. subst m. contradiction.
    + assert (N : In n [$"lf"; $"setx"; $"sety"]).
      { cbn [In] in Hn. destruct Hn as [Hn|[Hn|[Hn|[]]]]; apply pair_equal_spec in Hn as [<- _]; cbn; auto. }
      assert (kids = []) as -> by exact (fit_leaf _ _ _ _ _ Hf N). cbn [In] in N. destruct N as [<-|[<-|[<-|[]]]]; split; reflexivity.
Qed.
Lemma cells_strict : forall ks iss, strict ks iss -> fit ks -> Forall ok_cell (cells_of iss) /\ flat_map xcell_ink (cells_of iss) = each ($"td") cell_ink ks.
Proof.
  intros ks iss H. induction H as [|ts l _ IH|t ts l _ IH|t i ts l Hr _ IH]; intro Hf.
  - split; [constructor|reflexivity].
  - exact (IH (fit_tail _ _ Hf)).
  - destruct (IH (fit_tail _ _ Hf)) as [C E]. unfold text. destruct t; split; assumption.
  - destruct (IH (fit_tail _ _ Hf)) as [C E].
    assert (K : Forall ok_cell (cells_of [i]) /\ flat_map xcell_ink (cells_of [i]) = each ($"td") cell_ink [t]).
    2:{ destruct K as [K1 K2]. change (i :: l) with ([i] ++ l). change (t :: ts) with ([t] ++ ts). unfold cells_of in *. rewrite flat_map_app. split; [apply Forall_app; split; assumption|].
        rewrite flat_map_app, each_app, K2, E. reflexivity. }
    readings Hr; try (split; [constructor|reflexivity]).
    match goal with S : loose _ _ |- _ => destruct (run_loose _ _ S (fit_kids _ _ _ _ _ Hf)) as (C' & B' & E' & G') end.
    split; [change (Forall ok_cell [XCell s z z0 iss]); constructor; [|constructor]; split; [eapply fit_good; eassumption|split; [exact C'|exact B']]|]. cbn [cells_of flat_map app xcell_ink]. rewrite E', G'.
    unfold each at 2. cbn [flat_map]. change (beqb ($"td") ($"td")) with true. cbv iota. reflexivity.
Qed.
Lemma rows_strict : forall ks iss, strict ks iss -> fit ks -> Forall ok_row (rows_of iss) /\ flat_map xrow_ink (rows_of iss) = table_ink ks.
Proof.
  intros ks iss H. induction H as [|ts l _ IH|t ts l _ IH|t i ts l Hr _ IH]; intro Hf.
  - split; [constructor|reflexivity].
  - exact (IH (fit_tail _ _ Hf)).
  - destruct (IH (fit_tail _ _ Hf)) as [C E]. unfold text. destruct t; split; assumption.
  - destruct (IH (fit_tail _ _ Hf)) as [C E].
    assert (K : Forall ok_row (rows_of [i]) /\ flat_map xrow_ink (rows_of [i]) = table_ink [t]).
    2:{ destruct K as [K1 K2]. change (i :: l) with ([i] ++ l). change (t :: ts) with ([t] ++ ts). unfold rows_of, table_ink in *. rewrite flat_map_app. split; [apply Forall_app; split; assumption|].
        rewrite flat_map_app, each_app, K2, E. reflexivity. }
    readings Hr; try (split; [constructor|reflexivity]).
    match goal with S : strict _ _ |- _ => destruct (cells_strict _ _ S (fit_kids _ _ _ _ _ Hf)) as (C' & E') end.
    split; [constructor; [|constructor]; split; [eapply fit_good; eassumption|exact C']|]. cbn [rows_of flat_map app xrow_ink]. rewrite E'.
    unfold table_ink, each at 2. cbn [flat_map]. change (beqb ($"tr") ($"tr")) with true. cbv iota. reflexivity.
Qed.
Lemma body_strict : forall ks iss, strict ks iss -> fit ks -> Forall ok_top iss /\ flat_map top_ink iss = flat_map ink_of ks.
Proof.
  intros ks iss H. induction H as [|ts l _ IH|t ts l _ IH|t i ts l Hr _ IH]; intro Hf.
  - split; [constructor|reflexivity].
  - exact (IH (fit_tail _ _ Hf)).
  - destruct (IH (fit_tail _ _ Hf)) as [C E]. unfold text. destruct t; [split; assumption|]. split; [constructor; [exact I|exact C]|exact E].
  - destruct (IH (fit_tail _ _ Hf)) as [C E].
    assert (K : ok_top i /\ top_ink i = ink_of t); [|destruct K as [K1 K2]; split; [constructor; assumption|]; cbn [flat_map]; rewrite E, K2; reflexivity].
    readings Hr; try (split; [exact I|reflexivity]).
    + match goal with S : strict _ _ |- _ => destruct (run_strict _ _ S (fit_kids _ _ _ _ _ Hf)) as (C' & E') end. split; [split; [eapply fit_good; eassumption|exact C']|exact E'].
    + match goal with S : strict _ _ |- _ => destruct (run_strict _ _ S (fit_kids _ _ _ _ _ Hf)) as (C' & E') end. split; [split; [eapply fit_good; eassumption|exact C']|exact E'].
    + match goal with S : strict _ _ |- _ => destruct (rows_strict _ _ S (fit_kids _ _ _ _ _ Hf)) as (C' & E') end.
      split; [split; [eapply fit_good; eassumption|split; [|exact C']]|exact E'].
      assert (T : Some z = Some 0%Z) by (rewrite <- E0; exact (fit_table _ _ _ _ Hf)). injection T as ->. reflexivity.
Qed.
End Out.
End Env.

(** ** Styles without justification *)
Lemma occurs_trans : forall w a b : bytes, occurs w a -> occurs a b -> occurs w b.
Proof. intros w a b (x & y & ->) (u & v & ->). exists (u ++ x), (y ++ v). rewrite <- !app_assoc. reflexivity. Qed.
Lemma occurs_refl : forall w : bytes, occurs w w.
Proof. intro w. exists [], []. rewrite app_nil_r. reflexivity. Qed.
Lemma split_occurs : forall c s w, In w (split_byte c s) -> occurs w s.
Proof.
  intros c s w Hw. rewrite <- (split_byte_join c s). revert w Hw. generalize (split_byte c s). clear s. induction l as [|x l IH]; [intros w []|].
  intros w [<-|H]; [exists []; destruct l; cbn [str_join]; [exists []; rewrite app_nil_r; reflexivity|eexists; reflexivity]|].
  destruct l as [|y l]; [destruct H|]. destruct (IH w H) as (a & b & E). exists (x ++ [c] ++ a), b. cbn [str_join] in *. rewrite E, <- !app_assoc. reflexivity.
Qed.
Lemma decl_occurs : forall s k v, last_decl (items s) k v -> occurs v s.
Proof.
  intros s k v (l1 & d & l2 & E & (a & b & -> & _ & _ & _ & ->) & _).
  apply occurs_trans with (a ++ colon :: b); [|apply (split_occurs ";"%char); unfold items in E; rewrite E; apply in_app_iff; right; left; reflexivity].
  destruct (trim_split is_ws b) as (x & y & Eb & _). exists (a ++ colon :: x), y. rewrite Eb at 1. rewrite <- app_assoc. reflexivity.
Qed.
Lemma controls_occurs : forall s, occurs ($"block") (no_controls s) -> occurs ($"block") s.
Proof.
  intros s (a & b & E). unfold no_controls in E. apply map_eq_app in E as (s1 & s2 & -> & E1 & E). apply map_eq_app in E as (s3 & s4 & -> & E3 & _).
  exists s1, s4. f_equal. f_equal. clear -E3.
  assert (K : forall c d : ascii, d <> sp -> (if Ascii.eqb c cr || Ascii.eqb c lf || Ascii.eqb c tab then sp else c) = d -> c = d).
  { intros c d Hd H. destruct (_ || _)%bool; [exfalso; apply Hd; symmetry; exact H|exact H]. }
  cbn [list_ascii_of_string] in *. do 5 (destruct s3 as [|? s3]; [discriminate E3|]). destruct s3; [|discriminate E3]. cbn [map] in E3.
  injection E3 as H1 H2 H3 H4 H5. apply K in H1, H2, H3, H4, H5; try discriminate. subst. reflexivity.
Qed.
Lemma rule_occurs : forall s l, sheet s l -> forall r, In r l -> occurs (r_body r) s.
Proof.
  intros s l H. induction H as [|head body cls sel s l _ _ _ _ IH]; intros r Hr; [destruct Hr|]. destruct Hr as [<-|Hr].
  - cbn [r_body]. exists (head ++ ["{"%char]), ("}"%char :: s). rewrite <- app_assoc. reflexivity.
  - eapply occurs_trans; [exact (IH r Hr)|]. exists (head ++ "{"%char :: body ++ ["}"%char]), []. rewrite app_nil_r, <- app_assoc. cbn [app]. rewrite <- app_assoc. reflexivity.
Qed.
Lemma find_last_in : forall f l r t, find_last f l = Some (r, t) -> In r l /\ forall x, In x t -> In x l.
Proof.
  intros f l. induction l as [|y l IH]; intros r t H; cbn in H; [discriminate|]. destruct (find_last f l) as [[r' t']|].
  - injection H as -> ->. destruct (IH _ _ eq_refl) as [A B]. split; [right; exact A|intros x Hx; right; apply B, Hx].
  - destruct (f y); [|discriminate]. injection H as -> ->. split; [left; reflexivity|intros x Hx; right; exact Hx].
Qed.
Lemma class_in : forall l n b, class_rule l n = Some b -> exists r, In r l /\ b = r_body r.
Proof.
  intros l n b H. unfold class_rule in H. destruct (find_last (is_base n) l) as [[r t]|] eqn:E; [|discriminate]. injection H as <-. exists r. split; [exact (proj1 (find_last_in _ _ _ _ E))|reflexivity].
Qed.
Lemma selector_in : forall l n s b, selector_rule l n s = Some b -> exists r, In r l /\ b = r_body r.
Proof.
  intros l n s b H. unfold selector_rule in H. destruct (find_last (is_base n) l) as [[r t]|] eqn:E; [|discriminate].
  destruct (find_last (is_sel n s) t) as [[r' t']|] eqn:E'; [|discriminate]. injection H as <-. exists r'. split; [|reflexivity].
  exact (proj2 (find_last_in _ _ _ _ E) _ (proj1 (find_last_in _ _ _ _ E'))).
Qed.

Section Final.
Context {F : Num}.
Variables parse_float convert_float : bytes -> option F.
Lemma cascade_align : forall l (s s' : Styles F), cascades parse_float convert_float l s s' -> (forall b, In b l -> ~ occurs ($"block") b) ->
  HAlign (SAlign s) <> $"block" -> HAlign (SAlign s') <> $"block".
Proof.
  intros l s s' H Hb Hs E. destruct (H h_align) as [H1 H2].
  assert (N : forall x, ~ last_sets parse_float convert_float l h_align x).
  { intros x Hx. assert (G := H1 x Hx). cbn [prop_get] in G. destruct Hx as (l1 & b & l2 & -> & (v & Hd & Hv) & _). cbn [prop_value] in Hv. rewrite <- Hv in G || (injection Hv as Hv; rewrite <- Hv in G).
    injection G as G. rewrite E in G. apply (Hb b); [apply in_app_iff; right; left; reflexivity|]. rewrite G. eapply decl_occurs. exact Hd. }
  specialize (H2 N). cbn [prop_get] in H2. injection H2 as H2. congruence.
Qed.
Variables (order : nat -> bool -> nat -> rawmap -> rawmap) (sheet_order : nat -> rawmap -> rawmap).
Hypothesis Horder : forall pos second, map_orders (order pos second).
Hypothesis Hsheet : map_orders sheet_order.
Local Notation load := (load F parse_float convert_float order sheet_order).
Variables (hyph : bytes -> list bytes) (resolve : bytes -> bytes) (image : bytes -> option (Z * Z)) (shuffle : Grid.boxes -> Grid.boxes).
Hypothesis Hshuffle : forall l, Permutation (shuffle l) l.
Context {eng : Engine F}.
Hypothesis Hplaces : places eng.
Hypothesis Hstable : page_stable (eng:=eng).

Lemma section_letters : forall kids doc cs sec iss out,
  document_is parse_float (decode_styled F parse_float convert_float order) kids doc ->
  decode_classes F parse_float convert_float sheet_order (doc_style F doc) = COk cs ->
  strict parse_float (decode_styled F parse_float convert_float order) (under sec kids) iss ->
  writes_texts (loaded_env hyph resolve image shuffle doc cs) iss out ->
  plain_section parse_float convert_float (under sec kids) ->
  (unjustified sec kids -> nonblank (List.concat out) = section_ink sec kids) /\
  ((forall w, List.concat (hyph w) = w) -> hyphenated (section_ink sec kids) (nonblank (List.concat out))).
Proof.
  intros kids doc cs sec iss out D Hc B W Hb.
  split.
  - intros [U1 U2]. symmetry. unfold section_ink.
    assert (Fit : fit (loaded_env hyph resolve image shuffle doc cs) (fun sty => HAlign (SAlign sty) <> $"block") parse_float convert_float order (under sec kids)).
    { split; [exact Hb|]. intros p n a ks st Hk Hst s Hs.
      destruct (decode_classes_spec F parse_float convert_float sheet_order Hsheet (doc_style F doc)) as [(rules & cs' & Hr & _ & _ & Ec & Hm)|[_ Ec]]; [|congruence].
      assert (cs' = cs) as -> by congruence. rewrite (is_style _ _ _ _ D) in Hr.
      assert (Hbody : forall b, (exists r, In r rules /\ b = r_body r) -> ~ occurs ($"block") b).
      { intros b (rr & Hin & ->) Ho. apply U1. apply controls_occurs. eapply occurs_trans; [exact Ho|]. eapply rule_occurs; eassumption. }
      assert (Hstyle : forall b, In b (attr_values ($"style") a) -> ~ occurs ($"block") b) by (intros b Hin; eapply U2; [exact Hk|exact Hin]).
      split; [|intro sel]; cbn [e_mut e_mut_sel loaded_env].
      - destruct (mutated_styles_spec F parse_float convert_float (order p true) (Horder p true) rules cs a st s Hm Hst) as (s2 & -> & C).
        eapply cascade_align; [exact C| |exact Hs]. intros b Hin. unfold sources in Hin. apply in_app_iff in Hin as [Hin|Hin]; [|exact (Hstyle b Hin)].
        apply in_flat_map in Hin as (c & _ & Hin). destruct (class_rule rules c) as [b'|] eqn:E; [|destruct Hin]. destruct Hin as [<-|[]]. apply Hbody. eapply class_in. exact E.
      - destruct (mutated_styles_sel_spec F parse_float convert_float (order p true) (Horder p true) rules cs a st s sel Hm Hst) as (s2 & -> & C).
        eapply cascade_align; [exact C| |exact Hs]. intros b Hin. unfold sources_sel in Hin. apply in_app_iff in Hin as [Hin|Hin]; [|exact (Hstyle b Hin)].
        apply in_flat_map in Hin as (c & _ & Hin). destruct (selector_rule rules c sel) as [b'|] eqn:E.
        + destruct Hin as [<-|[]]. apply Hbody. eapply selector_in. exact E.
        + destruct (class_rule rules c) as [b'|] eqn:E'; [|destruct Hin]. destruct Hin as [<-|[]]. apply Hbody. eapply class_in. exact E'. }
    destruct (body_strict _ _ _ _ _ Horder _ _ B Fit) as [Ok E]. rewrite <- E.
    eapply texts_rendered with (R := eq); [reflexivity|intros; subst; reflexivity| | |exact Ok|exact W].
    + intros sty (f & ->). discriminate.
    + intros sty iss1 out1 Q C O. symmetry. exact (out_plain _ _ _ _ C Q O).
  - intro Hh. unfold section_ink.
    assert (Fit : fit (loaded_env hyph resolve image shuffle doc cs) (fun _ => True) parse_float convert_float order (under sec kids)).
    { split; [exact Hb|]. intros p n a ks st _ _ s _. split; [exact I|intros; exact I]. }
    destruct (body_strict _ _ _ _ _ Horder _ _ B Fit) as [Ok E]. rewrite <- E.
    eapply texts_rendered with (R := hyphenated); [constructor|exact hyphenated_app| | |exact Ok|exact W]; [intros; exact I|].
    intros sty iss1 out1 _ C O. exact (out_hyphened (loaded_env hyph resolve image shuffle doc cs) sty iss1 out1 Hh C O).
Qed.
Lemma file_letters : forall toks kids doc cs depth e r (s' : PS F eng), tokens_of toks kids -> load toks = LOk F doc cs ->
  process (loaded_env hyph resolve image shuffle doc cs) depth e = Ok r s' ->
  forall sec out, sec = $"body" /\ out = written (ps_trace s') \/
    (exists c sub, call_in (ps_trace s') c sub /\ out = written sub /\ sec = match c with Header => $"header" | Footer => $"footer" end) ->
  plain_section parse_float convert_float (under sec kids) ->
  (unjustified sec kids -> nonblank (List.concat out) = section_ink sec kids) /\
  ((forall w, List.concat (hyph w) = w) -> hyphenated (section_ink sec kids) (nonblank (List.concat out))).
Proof.
  intros toks kids doc cs depth e r s' Ht Hl Hp sec out Ho Hb.
  assert (W := process_says (loaded_env hyph resolve image shuffle doc cs) Hplaces Hstable Hshuffle depth e r s' Hp).
  apply load_iff in Hl as (kids' & Ht' & D & Hc). assert (kids' = kids) as -> by exact (tokens_unique _ _ _ Ht' Ht).
  destruct Ho as [[-> ->]|(c & sub & Hcall & -> & ->)].
  - exact (section_letters _ _ _ _ _ _ D Hc (is_body _ _ _ _ D) (proj1 W) Hb).
  - assert (W2 := proj2 W c sub Hcall). destruct c; [exact (section_letters _ _ _ _ _ _ D Hc (is_header _ _ _ _ D) W2 Hb)|exact (section_letters _ _ _ _ _ _ D Hc (is_footer _ _ _ _ D) W2 Hb)].
Qed.
End Final.
