(** Documents as a whole, for any account of what engine calls leave on the page (C89, C90, C102, C108). *)
From Coq Require Import Lia Permutation.
From Verif Require Import GoStr GoStrFacts Num Style Class Instr Engine Layout LayoutFacts Grid Table Lines LinesSpec LinesLink LinesView LinesThms WriteSpec WriteFacts Proc EngineFacts TableView TableSpec TableThms DrawSpec DrawFacts ProcInv ProcMeasure ProcFrame ProcView ProcSpec ProcThms ProcThms2 ProcThms3 ImageFacts CellSpec CellThms OutputSpec PaintSpec.
Local Open Scope nat_scope.

(** An observer of the engine calls: what it sees of them, starting with a pen; the pen after
    them, and at the beginning of a callback; which pens go with a state of the engine; and what
    is seen of a drawing. *)
Record Watcher {F : Num} (env : Env F) (eng : Engine F) := mkWatcher {
  X : Type;
  Pen : Type;
  ink : Pen -> list (event F) -> list X;
  after : Pen -> list (event F) -> Pen;
  enter : cb -> Pen -> Pen;
  Rel : Pen -> est eng -> Prop;
  dout : drawing (F:=F) -> list X -> Prop;
  ink_nil : forall p, ink p [] = [];
  ink_app : forall p a b, ink p (a ++ b) = ink p a ++ ink (after p a) b;
  ink_quiet : forall p c calls, visible c = false -> ink p [Ev c calls] = [];
  after_nil : forall p, after p [] = p;
  after_app : forall p a b, after p (a ++ b) = after (after p a) b;
  rel_any : forall e, exists p, Rel p e;
  rel_simple : forall p e c, visible (Simple c) = false -> Rel p e -> Rel (after p [Ev (Simple c) []]) (simple c e);
  rel_event : forall p e c calls, (forall c', c <> Simple c') -> Rel (fold_left (fun p x => after (enter (fst x) p) (snd x)) calls p) e -> Rel (after p [Ev c calls]) e;
  rel_page : forall p e, Rel p e -> (fix follows p prog := match prog with EDone e => Rel p e | ECall c e k => Rel (enter c p) e /\ forall q e', Rel q e' -> follows q (k e') end) p (addPage e);
  rel_write : forall t p e, Rel p e -> (fix follows p prog := match prog with EDone e => Rel p e | ECall c e k => Rel (enter c p) e /\ forall q e', Rel q e' -> follows q (k e') end) p (Engine.writeText t e);
  rel_pdf : forall p e, Rel p e -> (fix follows p prog := match prog with EDone e => Rel p e | ECall c e k => Rel (enter c p) e /\ forall q e', Rel q e' -> follows q (k e') end) p (writePDF e);
  dout_nil : forall sty, dout (DText sty []) [];
  dout_text : forall sty iss width x (s : PS F eng) evs, text_written env sty iss width x s (map ev_cmd evs) ->
    forall p, Rel p (ps_eng s) -> exists o, dout (DText sty iss) o /\ ink p evs = o;
  dout_frame : forall sty x0 y0 x1 y1 (s : PS F eng) p, Rel p (ps_eng s) -> dout (DFrame sty) (ink p (plain (box_cmds x0 y0 x1 y1 sty)));
  rel_frame : forall sty x0 y0 x1 y1 (s : PS F eng) p, Rel p (ps_eng s) -> Rel (after p (plain (box_cmds x0 y0 x1 y1 sty))) (ps_eng (emits (box_cmds x0 y0 x1 y1 sty) s));
  rel_image : forall p e source x y w h, Rel p e -> Rel (after p (plain [PutImage source x y w h])) (simple (PutImage source x y w h) e);
  dout_image : forall source x y w h wh p, e_image env (e_resolve env source) = Some wh -> dout (DImage source) (ink p (plain [PutImage (e_resolve env source) x y w h]));
  dout_missing : forall source, e_image env (e_resolve env source) = None -> dout (DImage source) []
}.
Arguments X {F env eng}. Arguments Pen {F env eng}. Arguments ink {F env eng}. Arguments after {F env eng}. Arguments enter {F env eng}. Arguments Rel {F env eng}. Arguments dout {F env eng}.
(** Callbacks with the pen they begin with. *)
Inductive call_at {F : Num} {Pen : Type} (after : Pen -> list (event F) -> Pen) (enter : cb -> Pen -> Pen) : Pen -> list (event F) -> cb -> Pen -> list (event F) -> Prop :=
| A_later : forall p e evs c q sub, call_at after enter (after p [e]) evs c q sub -> call_at after enter p (e :: evs) c q sub
| A_now : forall p cmd calls evs c q sub, called_at after enter p calls c q sub -> call_at after enter p (Ev cmd calls :: evs) c q sub
with called_at {F : Num} {Pen : Type} (after : Pen -> list (event F) -> Pen) (enter : cb -> Pen -> Pen) : Pen -> list (cb * list (event F)) -> cb -> Pen -> list (event F) -> Prop :=
| D_this : forall p calls c sub, called_at after enter p ((c, sub) :: calls) c (enter c p) sub
| D_deep : forall p calls c sub c' q sub', call_at after enter (enter c p) sub c' q sub' -> called_at after enter p ((c, sub) :: calls) c' q sub'
| D_later : forall p calls c sub c' q sub', called_at after enter (after (enter c p) sub) calls c' q sub' -> called_at after enter p ((c, sub) :: calls) c' q sub'.

Lemma called_skip : forall (F : Num) (Pen : Type) after enter calls c sub p, In (c, sub) calls -> (exists q, called_at (F:=F) (Pen:=Pen) after enter p calls c (enter c q) sub) /\
  forall c' sub', (forall p, exists q, call_at after enter p sub c' (enter c' q) sub') -> exists q, called_at after enter p calls c' (enter c' q) sub'.
Proof.
  intros F Pen after enter. induction calls as [|[c0 sub0] calls IH]; intros c sub p H; [destruct H|]. destruct H as [H|H].
  - injection H as -> ->. split; [exists p; apply D_this|]. intros c' sub' K. destruct (K (enter c p)) as [q Hq]. exists q. apply D_deep. exact Hq.
  - destruct (IH c sub (after (enter c0 p) sub0) H) as ((q & A) & B). split; [exists q; apply D_later; exact A|]. intros c' sub' K. destruct (B c' sub' K) as [q' Hq]. exists q'. apply D_later. exact Hq.
Qed.
Lemma call_skip : forall (F : Num) (Pen : Type) after enter evs cm calls c sub, In (Ev cm calls) evs -> (forall p, exists q, called_at (F:=F) (Pen:=Pen) after enter p calls c (enter c q) sub) ->
  forall p, exists q, call_at after enter p evs c (enter c q) sub.
Proof.
  intros F Pen after enter. induction evs as [|e evs IH]; intros cm calls c sub H K p; [destruct H|]. destruct H as [->|H].
  - destruct (K p) as [q Hq]. exists q. apply A_now. exact Hq.
  - destruct (IH cm calls c sub H K (after p [e])) as [q Hq]. exists q. apply A_later. exact Hq.
Qed.
(** Every callback is made with some pen. *)
Lemma call_at_some : forall (F : Num) (Pen : Type) after enter evs c sub, call_in (F:=F) evs c sub -> forall p, exists q, call_at (Pen:=Pen) after enter p evs c (enter c q) sub.
Proof.
  intros F Pen after enter evs c sub H. induction H as [evs cm calls c sub Hi Hc|evs cm calls c sub c' sub' Hi Hc Hd IH]; apply (call_skip F Pen after enter evs cm calls _ _ Hi); intros p.
  - exact (proj1 (called_skip F Pen after enter calls c sub p Hc)).
  - exact (proj2 (called_skip F Pen after enter calls c sub p Hc) _ _ IH).
Qed.

(** The drawings of the instructions are seen in order, starting with the pen [p]. *)
Definition paints {F : Num} {env : Env F} {eng : Engine F} (ob : Watcher env eng) (iss : list (instr F)) (p : Pen ob) (evs : list (event F)) : Prop :=
  exists ls outs, Forall2 (draws env) iss ls /\ Forall2 (dout ob) (List.concat ls) outs /\ ink ob p evs = List.concat outs.

(** ** The texts of instructions *)
Section Run.
Context {F : Num} (env : Env F) {eng : Engine F}.
Local Notation PS := (PS F eng).
Local Notation mut := (e_mut env).
Local Notation hyph := (e_hyph env).
Hypothesis Hplace : places eng.
Hypothesis Hpage : page_stable (eng:=eng).
Hypothesis Hshuffle : forall l, Permutation (e_shuffle env l) l.
Variable ob : Watcher env eng.
Local Notation X := (X ob). Local Notation Pen := (Pen ob). Local Notation ink := (ink ob). Local Notation after := (after ob). Local Notation enter := (enter ob). Local Notation Rel := (Rel ob). Local Notation dout := (dout ob).
Local Notation call_at := (call_at after enter). Local Notation called_at := (called_at after enter).
(** What is known of the calls made in a callback. *)
Variable Good : cb -> Pen -> list (event F) -> Prop.
Definition calls_good (p : Pen) (evs : list (event F)) : Prop := forall c q sub, call_at p evs c q sub -> Good c q sub.
Lemma good_nil : forall p, calls_good p [].
Proof. intros p c q sub H. inversion H. Qed.
Lemma good_app : forall a p b, calls_good p a -> calls_good (after p a) b -> calls_good p (a ++ b).
Proof.
  induction a as [|e a IH]; intros p b A B; [rewrite after_nil in B; exact B|]. intros c q sub H. cbn [app] in H. inversion H as [? ? ? ? ? ? H1|? cm calls ? ? ? ? H1]; subst.
  - apply (IH (after p [e]) b); [intros c' q' sub' K; apply A; apply A_later; exact K| |exact H1]. rewrite <- after_app. exact B.
  - apply A. apply A_now. exact H1.
Qed.
Lemma good_event : forall p c calls, (forall c' q sub, called_at p calls c' q sub -> Good c' q sub) -> calls_good p [Ev c calls].
Proof. intros p c calls H c' q sub K. inversion K as [? ? ? ? ? ? H1|? ? ? ? ? ? ? H1]; subst; [inversion H1|exact (H _ _ _ H1)]. Qed.

(** Steps that keep the ambient style and whose callbacks are good; those that write nothing;
    those that write the texts [l]. *)
Definition keeps (s s' : PS) : Prop := (ambient s -> ambient s') /\ exists evs, ps_trace s' = ps_trace s ++ evs /\
  forall p, Rel p (ps_eng s) -> Rel (after p evs) (ps_eng s') /\ calls_good p evs.
Definition silent (s s' : PS) : Prop := (ambient s -> ambient s') /\ exists evs, ps_trace s' = ps_trace s ++ evs /\
  forall p, Rel p (ps_eng s) -> Rel (after p evs) (ps_eng s') /\ calls_good p evs /\ ink p evs = [].
Definition texts_out (l : list (drawing (F:=F))) (outs : list (list X)) : Prop := Forall2 dout l outs.
Definition says (l : list (drawing (F:=F))) (s s' : PS) : Prop := (ambient s -> ambient s') /\
  exists evs, ps_trace s' = ps_trace s ++ evs /\
  forall p, Rel p (ps_eng s) -> Rel (after p evs) (ps_eng s') /\ calls_good p evs /\ exists outs, texts_out l outs /\ ink p evs = List.concat outs.

Lemma silent_same : forall s s' : PS, (ambient s -> ambient s') -> ps_trace s' = ps_trace s -> ps_eng s' = ps_eng s -> silent s s'.
Proof.
  intros s s' A T E. split; [exact A|]. exists []. rewrite T, E. split; [symmetry; apply app_nil_r|]. intros p Hp. rewrite after_nil. split; [exact Hp|]. split; [apply good_nil|apply ink_nil].
Qed.
Lemma silent_refl : forall s, silent s s.
Proof. intros s. apply silent_same; auto. Qed.
Lemma silent_trans : forall a b c, silent a b -> silent b c -> silent a c.
Proof.
  intros a b c [A (e1 & T1 & G1)] [B (e2 & T2 & G2)]. split; [auto|]. exists (e1 ++ e2). rewrite T2, T1, app_assoc. split; [reflexivity|].
  intros p Hp. destruct (G1 p Hp) as (R1 & C1 & W1). destruct (G2 _ R1) as (R2 & C2 & W2). rewrite after_app, ink_app, W1, W2. split; [exact R2|]. split; [apply good_app; assumption|reflexivity].
Qed.
Lemma good_simple : forall p (c : scmd F), calls_good p [Ev (Simple c) []].
Proof. intros p c. apply good_event. intros ? ? ? H. inversion H. Qed.
Lemma silent_emit : forall c s, visible (Simple c) = false -> silent s (emitted c s).
Proof.
  intros c s V. split; [auto|]. exists [Ev (Simple c) []]. split; [apply emitted_trace|]. intros p Hp. split; [exact (rel_simple _ _ _ _ _ _ V Hp)|]. split; [apply good_simple|]. apply ink_quiet. exact V.
Qed.
Lemma silent_font : forall f (s : PS), silent s (set_sty (with_font f (ps_sty s)) s).
Proof. intros f s. apply silent_same; [|reflexivity|reflexivity]. intros [g E]. exists f. cbn. rewrite E. reflexivity. Qed.
Lemma silent_says : forall s s', silent s s' -> says [] s s'.
Proof. intros s s' [A (evs & T & G)]. split; [exact A|]. exists evs. split; [exact T|]. intros p Hp. destruct (G p Hp) as (R1 & C1 & W1). split; [exact R1|]. split; [exact C1|]. exists []. split; [constructor|exact W1]. Qed.
Lemma says_app : forall l1 l2 a b c, says l1 a b -> says l2 b c -> says (l1 ++ l2) a c.
Proof.
  intros l1 l2 a b c [A (e1 & T1 & G1)] [B (e2 & T2 & G2)]. split; [auto|]. exists (e1 ++ e2). rewrite T2, T1, app_assoc. split; [reflexivity|].
  intros p Hp. destruct (G1 p Hp) as (R1 & C1 & o1 & O1 & W1). destruct (G2 _ R1) as (R2 & C2 & o2 & O2 & W2). rewrite after_app, ink_app, W1, W2. split; [exact R2|].
  split; [apply good_app; assumption|]. exists (o1 ++ o2). split; [apply Forall2_app; assumption|symmetry; apply concat_app].
Qed.
Lemma says_before : forall l a b c, silent a b -> says l b c -> says l a c.
Proof. intros l a b c A B. exact (says_app [] l a b c (silent_says _ _ A) B). Qed.
Lemma says_after : forall l a b c, says l a b -> silent b c -> says l a c.
Proof. intros l a b c A B. rewrite <- (app_nil_r l). exact (says_app l [] a b c A (silent_says _ _ B)). Qed.
Lemma silent_keeps : forall s s', silent s s' -> keeps s s'.
Proof. intros s s' [A (evs & T & G)]. split; [exact A|]. exists evs. split; [exact T|]. intros p Hp. destruct (G p Hp) as (R1 & C1 & _). split; assumption. Qed.
Lemma keeps_refl : forall s, keeps s s.
Proof. intros s. apply silent_keeps, silent_refl. Qed.
Lemma keeps_trans : forall a b c, keeps a b -> keeps b c -> keeps a c.
Proof.
  intros a b c [A (e1 & T1 & G1)] [B (e2 & T2 & G2)]. split; [auto|]. exists (e1 ++ e2). rewrite T2, T1, app_assoc. split; [reflexivity|].
  intros p Hp. destruct (G1 p Hp) as (R1 & C1). destruct (G2 _ R1) as (R2 & C2). rewrite after_app. split; [exact R2|apply good_app; assumption].
Qed.

Section Callback.
Variable callback : cb -> M eng unit.
Hypothesis Hcall : forall c s p, ambient s -> ps_trace s = [] -> Rel p (ps_eng s) ->
  match callback c s with Ok _ s' => ambient s' /\ Good c p (ps_trace s') /\ calls_good p (ps_trace s') /\ Rel (after p (ps_trace s')) (ps_eng s') | Panic => False | Diverge => True end.
Fixpoint follows (p : Pen) (prog : eprog (est eng)) : Prop :=
  match prog with EDone e => Rel p e | ECall c e k => Rel (enter c p) e /\ forall q e', Rel q e' -> follows q (k e') end.
Definition calls_after (p : Pen) (calls : list (cb * list (event F))) : Pen := fold_left (fun p x => after (enter (fst x) p) (snd x)) calls p.
Lemma run_calls_good : forall prog acc s, ambient s ->
  match run_calls callback prog acc s with
  | Ok calls s' => ambient s' /\ exists more, calls = acc ++ more /\ forall p, follows p prog -> Rel (calls_after p more) (ps_eng s') /\ forall c q sub, called_at p more c q sub -> Good c q sub
  | Panic => False | Diverge => True end.
Proof.
  induction prog as [e|c e k IH]; intros acc s Hs; cbn [run_calls].
  - split; [exact Hs|]. exists []. split; [symmetry; apply app_nil_r|]. intros p Hp. split; [exact Hp|]. intros c q sub H. inversion H.
  - destruct (rel_any _ _ ob e) as [p0 Hp0]. assert (G0 := Hcall c (set_eng e (set_trace [] s)) p0 Hs eq_refl Hp0).
    assert (G1 := fun p Hp => Hcall c (set_eng e (set_trace [] s)) p Hs eq_refl Hp).
    destruct (callback c _) as [[] s'| |]; try exact G0. destruct G0 as (A & _). specialize (IH (ps_eng s') (acc ++ [(c, ps_trace s')]) s' A).
    destruct (run_calls callback _ _ s') as [calls s2| |]; try exact IH. destruct IH as (A2 & more & -> & IH). split; [exact A2|]. exists ((c, ps_trace s') :: more). rewrite <- app_assoc. split; [reflexivity|].
    intros p [Hp Hk]. destruct (G1 _ Hp) as (_ & B & C & D). destruct (IH _ (Hk _ _ D)) as [R2 C2]. split; [exact R2|].
    intros c' q sub H. inversion H as [|? ? ? ? ? ? ? H1|? ? ? ? ? ? ? H1]; subst; [exact B|exact (C _ _ _ H1)|exact (C2 _ _ _ H1)].
Qed.
Lemma command_good : forall c prog s, (forall c', c <> Simple c') -> (forall p e, Rel p e -> follows p (prog e)) -> ambient s -> match command callback c prog s with
  | Ok _ s' => ambient s' /\ exists calls, ps_trace s' = ps_trace s ++ [Ev c calls] /\ forall p, Rel p (ps_eng s) -> Rel (after p [Ev c calls]) (ps_eng s') /\ calls_good p [Ev c calls]
  | Panic => False | Diverge => True end.
Proof.
  intros c prog s Hc Hf Hs. unfold command. assert (G := run_calls_good (prog (ps_eng s)) [] s Hs).
  destruct (run_calls callback _ _ s) as [calls s'| |]; try exact G. destruct G as (A & more & -> & B). split; [exact A|]. exists more. split; [reflexivity|].
  intros p Hp. destruct (B p (Hf _ _ Hp)) as [R1 C1]. split; [exact (rel_event _ _ _ _ _ _ _ Hc R1)|]. apply good_event. exact C1.
Qed.
Lemma page_silent : forall s, ambient s -> okres silent True s (add_page callback s).
Proof.
  intros s Hs. unfold add_page. assert (G := command_good AddPage addPage s ltac:(discriminate) (rel_page _ _ ob) Hs). destruct (command callback AddPage addPage s) as [[] s'| |]; try exact G.
  destruct G as (A & calls & T & G). split; [intros _; exact A|]. exists [Ev AddPage calls]. split; [exact T|]. intros p Hp. destruct (G p Hp) as [R1 C1]. split; [exact R1|]. split; [exact C1|]. apply ink_quiet. reflexivity.
Qed.
Lemma write_keeps : forall t s, ambient s -> okres keeps True s (write_text callback t s).
Proof.
  intros t s Hs. unfold write_text. assert (G := command_good (WriteText t) (Engine.writeText t) s ltac:(discriminate) (rel_write _ _ ob t) Hs). destruct (command callback _ _ s) as [[] s'| |]; try exact G.
  destruct G as (A & calls & T & G). split; [intros _; exact A|]. exists [Ev (WriteText t) calls]. split; [exact T|exact G].
Qed.

(** Computations without callbacks. *)
Local Notation quietly := (sok silent (ambient (F:=F))).
Let Hinv : forall s s' : PS, ambient s -> silent s s' -> ambient s'.
Proof. intros s s' A [B _]. auto. Qed.
Let Hemit : forall c (s : PS), visible (Simple c) = false -> ambient s -> silent s (emitted c s).
Proof. intros c s V _. apply silent_emit. exact V. Qed.
Let Hfont : forall f (s : PS), ambient s -> silent s (set_sty (with_font f (ps_sty s)) s).
Proof. intros f s _. apply silent_font. Qed.
Lemma lift_silent : forall A (m : St eng A), quietly m -> forall s a s', ambient s -> lift m s = Ok a s' -> silent s s'.
Proof. intros A m Hm s a s' Hs H. apply lift_ok in H. assert (G := Hm s Hs). rewrite H in G. exact G. Qed.
Lemma q_transform : forall st xrows, quietly (transformTable env st xrows).
Proof. intros. apply meas_transform; auto using silent_refl. exact silent_trans. Qed.
Lemma q_reset : quietly (resetStyles (eng:=eng)).
Proof. apply meas_reset; auto using silent_refl. exact silent_trans. Qed.
Lemma q_tbh : forall st iss pa, quietly (textBoxHeight env st iss pa).
Proof. intros. apply meas_tbh; auto using silent_refl. exact silent_trans. Qed.
Lemma q_height : forall iss w y, quietly (textHeight mut iss w y).
Proof. intros. apply meas_height; auto using silent_refl. exact silent_trans. Qed.
Lemma q_bth : forall iss w y, quietly (box_text_height env iss w y).
Proof. intros. apply meas_bth; auto using silent_refl. exact silent_trans. Qed.
Lemma q_font : forall f, quietly (changeFont f).
Proof. intros. apply meas_changeFont; auto. exact silent_trans. Qed.
Lemma q_emit : forall c, visible (Simple c) = false -> quietly (emit c).
Proof. intros c V s Hs. rewrite emit_eq. apply silent_emit. exact V. Qed.
Lemma emit_silent : forall c s a (s' : PS), ambient s -> lift (emit c) s = Ok a s' -> visible (Simple c) = false -> silent s s'.
Proof. intros c s a s' Hs H V. exact (lift_silent _ _ (q_emit c V) _ _ _ Hs H). Qed.
(** Drawing frames and images. *)
Lemma plain_good : forall (l : list (scmd F)) p, calls_good p (plain l).
Proof.
  induction l as [|c l IH]; intros p; [apply good_nil|]. change (plain (c :: l)) with ([Ev (Simple c) []] ++ plain (F:=F) l). apply good_app; [apply good_simple|apply IH].
Qed.
Lemma emits_says : forall l d s, (forall p, Rel p (ps_eng s) -> Rel (after p (plain l)) (ps_eng (emits l s)) /\ dout d (ink p (plain l))) -> says [d] s (emits l s).
Proof.
  intros l d s H. split; [unfold ambient; rewrite emits_sty; auto|]. exists (plain l). split; [apply emits_trace|]. intros p Hp. destruct (H p Hp) as [R1 D1]. split; [exact R1|]. split; [apply plain_good|].
  exists [ink p (plain l)]. split; [constructor; [exact D1|constructor]|]. cbn. symmetry. apply app_nil_r.
Qed.
Lemma frame_says : forall x0 y0 x1 y1 sty (s s' : PS), lift (drawBox x0 y0 x1 y1 sty) s = Ok tt s' -> says [DFrame sty] s s'.
Proof.
  intros x0 y0 x1 y1 sty s s' H. apply lift_ok in H. rewrite drawBox_run in H. remember (box_cmds x0 y0 x1 y1 sty) as l eqn:E. injection H as <-. apply emits_says. intros p Hp. rewrite E. split; [exact (rel_frame _ _ ob _ _ _ _ _ _ _ Hp)|exact (dout_frame _ _ ob _ _ _ _ _ _ _ Hp)].
Qed.
Lemma image_says : forall st source pa (s s' : PS), lift (renderImage env st source pa) s = Ok tt s' -> says [DImage source] s s'.
Proof.
  intros st source pa s s' H. apply lift_ok in H. rewrite renderImage_run in H. destruct (e_image env (e_resolve env source)) as [[w h]|] eqn:E.
  - cbv zeta in H. destruct (image_size pa (mut st (ps_sty s)) w h) as [w' h']. injection H as <-. refine (emits_says [PutImage (e_resolve env source) _ _ w' h'] _ s _). intros p Hp. split; [exact (rel_image _ _ ob _ _ _ _ _ _ _ Hp)|exact (dout_image _ _ ob _ _ _ _ _ _ p E)].
  - injection H as <-. split; [auto|]. exists []. split; [symmetry; apply app_nil_r|]. intros p Hp. rewrite after_nil. split; [exact Hp|]. split; [apply good_nil|].
    exists [[]]. split; [|apply ink_nil]. constructor; [|constructor]. exact (dout_missing _ _ ob _ E).
Qed.

(** Writing a text. *)
Lemma fnc_says : forall sty iss width (s s' : PS), ambient s -> writeTextFnc callback mut hyph sty iss width sty s = Ok tt s' -> says [DText sty iss] s s'.
Proof.
  intros sty iss width s s' Hs H. destruct (fnc_written env callback Hplace Hpage _ _ _ _ _ H) as (cmds & (evs & T & E) & W).
  assert (K : okres keeps True s (writeTextFnc callback mut hyph sty iss width sty s)).
  { apply writ_wfnc with (I := ambient (F:=F)); try assumption.
    - exact keeps_refl.
    - exact keeps_trans.
    - intros a b A [B _]. auto.
    - intros c a V A. apply silent_keeps, silent_emit. exact V.
    - intros f a A. apply silent_keeps, silent_font.
    - intros t a A. apply write_keeps. exact A. }
  rewrite H in K. destruct K as [A (evs' & T' & G)]. rewrite T in T'. apply app_inv_head in T'. subst evs'.
  subst cmds. split; [exact A|]. exists evs. split; [exact T|]. intros p Hp. destruct (G p Hp) as [R1 C1]. split; [exact R1|]. split; [exact C1|].
  destruct (dout_text _ _ ob _ _ _ _ _ _ W p Hp) as (o & O & I). exists [o]. split; [constructor; [exact O|constructor]|]. rewrite I. cbn. symmetry. apply app_nil_r.
Qed.
Lemma nothing_says : forall sty s, says [DText sty []] s s.
Proof.
  intros sty s. split; [auto|]. exists []. split; [symmetry; apply app_nil_r|]. intros p Hp. rewrite after_nil. split; [exact Hp|]. split; [apply good_nil|].
  exists [[]]. split; [|apply ink_nil]. constructor; [|constructor]. apply dout_nil.
Qed.
Lemma text_says : forall st iss (s s' : PS), ambient s -> renderText env callback st iss s = Ok tt s' -> says [DText (mut st (ps_sty s)) iss] s s'.
Proof.
  intros st iss s s' Hs H. unfold renderText in H. destruct iss as [|i iss]; [injection H as <-; apply nothing_says|].
  apply bind_ok in H as (y & s1 & H1 & H). apply lift_ok in H1. injection H1 as <- <-. apply bind_ok in H as (pg & s1 & H1 & H). apply lift_ok in H1.
  destruct (page_now_eq s) as [pg' E]. rewrite E in H1. injection H1 as <- <-. apply bind_ok in H as ([] & s2 & H2 & H).
  assert (G := fnc_says _ _ _ _ _ Hs H2). eapply says_after; [exact G|]. eapply lift_silent; [apply q_reset| |exact H]. apply (proj1 G). exact Hs.
Qed.
Lemma box_says : forall st iss pa (s s' : PS), ambient s -> renderTextBox env callback st iss pa s = Ok tt s' -> says [DFrame (mut st (ps_sty s)); DText (mut st (ps_sty s)) iss] s s'.
Proof.
  intros st iss pa s s' Hs H. unfold renderTextBox in H. cbv zeta in H.
  apply bind_ok in H as (y & sa & H1 & H). apply lift_ok in H1. injection H1 as <- <-.
  apply bind_ok in H as (h & s1 & H1 & H). assert (Q1 := lift_silent _ _ (q_bth _ _ _) _ _ _ Hs H1). assert (A1 := Hinv _ _ Hs Q1).
  apply bind_ok in H as (xy & sa & H2 & H). apply lift_ok in H2. injection H2 as <- <-.
  apply bind_ok in H as (m & sa & H2 & H). apply lift_ok in H2. injection H2 as <- <-.
  apply bind_ok in H as (ph & sa & H2 & H). apply lift_ok in H2. injection H2 as <- <-.
  apply bind_ok in H as (pv & sa & H2 & H). apply lift_ok in H2. injection H2 as <- <-.
  apply bind_ok in H as ([px py] & s2 & H2 & H).
  assert (Q2 : silent s1 s2).
  { destruct (negb _ && _)%bool; [|injection H2 as _ <-; apply silent_refl].
    apply bind_ok in H2 as ([] & sb & H2 & H3). apply lift_ok in H3. injection H3 as _ <-. assert (G := page_silent s1 A1). rewrite H2 in G. exact G. }
  assert (A2 := Hinv _ _ A1 Q2).
  apply bind_ok in H as ([] & s3 & H3 & H). assert (Q3 := frame_says _ _ _ _ _ _ _ H3). assert (A3 := proj1 Q3 A2).
  apply bind_ok in H as ([] & s4 & H4 & H). assert (Q4 := emit_silent _ _ _ _ A3 H4 eq_refl). assert (A4 := Hinv _ _ A3 Q4).
  apply bind_ok in H as ([] & s5 & H5 & H). assert (Q5 := emit_silent _ _ _ _ A4 H5 eq_refl). assert (A5 := Hinv _ _ A4 Q5).
  apply bind_ok in H as ([] & s6 & H6 & H).
  assert (Q6 : says [DText (mut st (ps_sty s)) iss] s5 s6) by (destruct iss as [|i iss]; [injection H6 as <-; apply nothing_says|exact (fnc_says _ _ _ _ _ A5 H6)]).
  assert (A6 := proj1 Q6 A5).
  apply bind_ok in H as ([] & s7 & H7 & H). assert (Q7 := emit_silent _ _ _ _ A6 H7 eq_refl). assert (A7 := Hinv _ _ A6 Q7).
  assert (Q8 := lift_silent _ _ q_reset _ _ _ A7 H).
  eapply says_before; [exact (silent_trans _ _ _ Q1 Q2)|]. eapply (says_app [DFrame _]); [exact Q3|]. eapply says_before; [exact (silent_trans _ _ _ Q4 Q5)|].
  eapply says_after; [exact Q6|exact (silent_trans _ _ _ Q7 Q8)].
Qed.

(** Cells. *)
Lemma boxes_say : forall va pa iss (s s' : PS), ambient s -> cell_boxes env callback va pa iss s = Ok tt s' ->
  exists l, draws_children env iss l /\ says l s s'.
Proof.
  intros va pa. induction iss as [|i iss IH]; intros s s' Hs H; cbn [cell_boxes] in H.
  { injection H as <-. exists []. split; [constructor|apply silent_says, silent_refl]. }
  apply bind_ok in H as ([] & s1 & H1 & H).
  assert (O : (forall st biss, i <> IBox st biss) -> (forall st src, i <> IImage st src) -> silent s s1 -> exists l, draws_children env (i :: iss) l /\ says l s s').
  { intros Hi Hj Q. destruct (IH _ _ (Hinv _ _ Hs Q) H) as (l & B & S). exists l. split; [constructor; assumption|exact (says_before _ _ _ _ Q S)]. }
  destruct i; try (injection H1 as <-; apply O; [discriminate|discriminate|apply silent_refl]).
  - clear O. apply bind_ok in H1 as (v & s2 & H2 & H1). assert (Q2 := lift_silent _ _ (q_tbh _ _ _) _ _ _ Hs H2). assert (A2 := Hinv _ _ Hs Q2).
    apply bind_ok in H1 as ([] & s3 & H3 & H1).
    assert (Q3 : silent s2 s3) by (revert H3; destruct (beqb va ($"middle")); [|destruct (beqb va ($"bottom"))]; intros Hx; (eapply emit_silent; [eassumption|exact Hx|reflexivity])).
    assert (A3 := Hinv _ _ A2 Q3). assert (S1 := box_says _ _ _ _ _ A3 H1). destruct (IH _ _ (proj1 S1 A3) H) as (l & B & S).
    eexists. split; [constructor; [exact A3|exact B]|]. eapply says_before; [exact (silent_trans _ _ _ Q2 Q3)|]. exact (says_app _ _ _ _ _ S1 S).
  - clear O. apply bind_ok in H1 as ([] & s2 & H2 & H1). assert (Q2 := emit_silent _ _ _ _ Hs H2 eq_refl). assert (A2 := Hinv _ _ Hs Q2).
    assert (S1 := image_says _ _ _ _ _ H1). destruct (IH _ _ (proj1 S1 A2) H) as (l & B & S). eexists. split; [constructor; exact B|]. eapply says_before; [exact Q2|]. exact (says_app [DImage _] _ _ _ _ S1 S).
Qed.
Definition cell_draws (x : tcell F) (l : list (drawing (F:=F))) : Prop := exists l', l = DFrame (c_sty x) :: DText (c_sty x) (c_iss x) :: l' /\ draws_children env (c_iss x) l'.
Lemma cell_says : forall pa x (s s' : PS), ambient s -> renderCell env callback pa x s = Ok tt s' -> exists l, cell_draws x l /\ says l s s'.
Proof.
  intros pa x s s' Hs H. unfold renderCell in H. cbv zeta in H.
  apply bind_ok in H as ([] & s1 & H1 & H). assert (Q1 := frame_says _ _ _ _ _ _ _ H1). assert (A1 := proj1 Q1 Hs).
  apply bind_ok in H as ([] & s2 & H2 & H).
  assert (S2 : says [DText (c_sty x) (c_iss x)] s1 s2).
  { destruct (c_iss x) as [|i iss]; [injection H2 as <-; apply nothing_says|].
    apply bind_ok in H2 as (th & sa & Ha & H2). assert (Qa := lift_silent _ _ (q_height _ _ _) _ _ _ A1 Ha). assert (Aa := Hinv _ _ A1 Qa).
    apply bind_ok in H2 as ([] & sb & Hb & H2).
    assert (Qb : silent sa sb) by (revert Hb; destruct (beqb _ ($"middle")); [|destruct (beqb _ ($"bottom"))]; intros Hx; (eapply emit_silent; [eassumption|exact Hx|reflexivity])).
    assert (Ab := Hinv _ _ Aa Qb). apply bind_ok in H2 as ([] & sc & Hc & H2). assert (Qc := emit_silent _ _ _ _ Ab Hc eq_refl). assert (Ac := Hinv _ _ Ab Qc).
    eapply says_before; [exact (silent_trans _ _ _ Qa (silent_trans _ _ _ Qb Qc))|]. exact (fnc_says _ _ _ _ _ Ac H2). }
  assert (A2 := proj1 S2 A1). apply bind_ok in H as ([] & s3 & H3 & H). assert (Q3 := emit_silent _ _ _ _ A2 H3 eq_refl). assert (A3 := Hinv _ _ A2 Q3).
  destruct (boxes_say _ _ _ _ _ A3 H) as (l & B & S). exists (DFrame (c_sty x) :: DText (c_sty x) (c_iss x) :: l). split; [exists l; split; [reflexivity|exact B]|].
  eapply (says_app [DFrame (c_sty x)]); [exact Q1|]. eapply (says_app [DText (c_sty x) (c_iss x)]); [exact S2|]. exact (says_before _ _ _ _ Q3 S).
Qed.
(** Rows. *)
Lemma each_says : forall A (f : A -> M eng unit) (P : A -> list (drawing (F:=F)) -> Prop) l,
  (forall a s s', In a l -> ambient s -> f a s = Ok tt s' -> exists m, P a m /\ says m s s') ->
  forall s s', ambient s -> each f l s = Ok tt s' -> exists ms, Forall2 P l ms /\ says (List.concat ms) s s'.
Proof.
  intros A f P. induction l as [|a l IH]; intros Hf s s' Hs H; cbn [each] in H.
  { injection H as <-. exists []. split; [constructor|apply silent_says, silent_refl]. }
  apply bind_ok in H as ([] & s1 & H1 & H). destruct (Hf a s s1 (or_introl eq_refl) Hs H1) as (m & Pm & S1).
  destruct (IH (fun b s0 s0' Hb => Hf b s0 s0' (or_intror Hb)) s1 s' (proj1 S1 Hs) H) as (ms & Pms & S). exists (m :: ms). split; [constructor; assumption|]. exact (says_app _ _ _ _ _ S1 S).
Qed.
Lemma row_says : forall h x0 y row (s s' : PS), ambient s -> draw_row env callback h x0 y row s = Ok tt s' ->
  exists ls, Forall2 (fun c l => cell_draws (deref h c) l) (filter (authored h) row) ls /\ says (List.concat ls) s s'.
Proof.
  intros h x0 y row s s' Hs H. unfold draw_row in H. apply bind_ok in H as ([] & s1 & H1 & H).
  eapply (each_says _ _ (fun jc l => cell_draws (deref h (snd jc)) l)) in H1; [| |exact Hs].
  - destruct H1 as (ms & P & S). exists ms. split.
    + assert (E : map snd (filter (fun jc => authored h (snd jc)) (combine (seq 0 (List.length row)) row)) = filter (authored h) row).
      { clear. generalize 0. induction row as [|c row IH]; intros n; [reflexivity|]. cbn. destruct (authored h c); cbn; [f_equal|]; apply IH. }
      rewrite <- E. clear - P. induction P; constructor; assumption.
    + eapply says_after; [exact S|]. eapply emit_silent; [|exact H|reflexivity]. exact (proj1 S Hs).
  - intros [j c] sa sb _ Ha Hb. cbv zeta in Hb. destruct (cell_dim h c) as [w v]. exact (cell_says _ _ _ _ Ha Hb).
Qed.

(** Tables. *)
Lemma Forall2_length : forall A B (P : A -> B -> Prop) l m, Forall2 P l m -> List.length l = List.length m.
Proof. intros A B P l m H. induction H; [reflexivity|]. cbn. rewrite IHForall2. reflexivity. Qed.
Arguments Forall2_length {A B P l m}.
Lemma Forall2_nth : forall A B (P : A -> B -> Prop) l m, Forall2 P l m -> forall k a b, nth_error l k = Some a -> nth_error m k = Some b -> P a b.
Proof. intros A B P l m H. induction H as [|a b l m Hab H IH]; intros [|k] x y Hx Hy; try discriminate; cbn in *; [injection Hx as <-; injection Hy as <-; exact Hab|exact (IH k x y Hx Hy)]. Qed.
Lemma Forall2_concat : forall A B (P : A -> B -> Prop) ls m, Forall2 P (List.concat ls) m -> exists ms, m = List.concat ms /\ Forall2 (Forall2 P) ls ms.
Proof.
  intros A B P. induction ls as [|l ls IH]; intros m H; cbn in H; [inversion H; exists []; split; [reflexivity|constructor]|].
  apply Forall2_app_inv_l in H as (m1 & m2 & H1 & H2 & ->). destruct (IH _ H2) as (ms & -> & H3). exists (m1 :: ms). split; [reflexivity|constructor; assumption].
Qed.
Section Table.
Variables (st : Styled F) (xrows : list (xrow F)) (s0 s1 : PS) (h : heap F) (t : table F).
Hypothesis HT : transformTable env st xrows s0 = (Some (h, t), s1).
Let tab : Styles F := mut st (ps_sty s0).
Lemma row_draws : forall i ls, Forall2 (fun c l => cell_draws (deref h c) l) (filter (authored h) (cells (t_rows t) i)) ls ->
  draws_nth env tab xrows i (List.concat ls).
Proof.
  intros i ls H. unfold draws_nth. assert (K := keeps_cells _ _ _ _ _ _ _ HT i). unfold xcells in K.
  destruct (all_styles _ _ _ _ _ _ _ HT) as [T S]. fold tab in T. destruct (nth_error xrows i) as [[y l]|] eqn:E.
  - destruct (S i y l E) as (row & R & Sr & Sc). unfold cells in H, K. rewrite R in H, K. unfold draws_row. exists ls. split; [reflexivity|].
    assert (L := f_equal (@List.length _) K). rewrite !map_length in L. split; [rewrite <- L; symmetry; exact (Forall2_length H)|].
    intros k [cy cs rs iss] lk Hk Hl. destruct (Sc k cy cs rs iss Hk) as (c & Hc & Hs). destruct (Forall2_nth _ _ _ _ _ H k c lk Hc Hl) as (l' & -> & B).
    assert (C := f_equal (fun m => nth_error m k) K). cbn beta in C. rewrite !nth_error_map, Hc, Hk in C. cbn in C. injection C as Ei _ _.
    unfold draws_cell. cbv zeta. exists l'. rewrite <- Ei. split; [|exact B]. rewrite Hs, Sr, T. reflexivity.
  - cbn in K. destruct (filter (authored h) (cells (t_rows t) i)); [|discriminate K]. inversion H. reflexivity.
Qed.
Lemma step_says : forall x0 sp (s s' : PS), ambient s -> run_step env callback h (t_rows t) x0 sp s = Ok tt s' ->
  exists l, match sp with Break => l = [] | Row i _ => draws_nth env tab xrows i l end /\ says l s s'.
Proof.
  intros x0 [|i y] s s' Hs H; cbn [run_step] in H.
  - exists []. split; [reflexivity|]. apply silent_says. assert (G := page_silent s Hs). rewrite H in G. exact G.
  - destruct (row_says _ _ _ _ _ _ Hs H) as (ls & P & S). exists (List.concat ls). split; [exact (row_draws i ls P)|exact S].
Qed.
Lemma schedule_says : forall rh x0 y0 bottom before blocks (s s' : PS) y', ambient s ->
  schedule env callback h (t_rows t) rh x0 y0 bottom before blocks s s' y' ->
  exists bs, says (List.concat bs) s s' /\ List.length bs = List.length (t_rows t) /\
  forall i b, nth_error bs i = Some b -> exists hs r, b = List.concat hs ++ r /\ draws_nth env tab xrows i r /\
    (hs = [] \/ 0 < i /\ List.length hs = Nat.min (Z.to_nat rh) (List.length bs) /\ forall k hk, nth_error hs k = Some hk -> draws_nth env tab xrows k hk).
Proof.
  intros rh x0 y0 bottom before blocks s s' y' Hs D. assert (R := D_run _ _ _ _ _ _ _ _ _ _ _ _ _ D). unfold run in R.
  eapply (each_says _ _ (fun sp l => match sp with Break => l = [] | Row i _ => draws_nth env tab xrows i l end)) in R; [| |exact Hs].
  2:{ intros sp sa sb _ Ha Hb. exact (step_says _ _ _ _ Ha Hb). }
  destruct R as (ms & P & S). apply Forall2_app_inv_l in P as (m1 & m2 & P1 & P2 & ->).
  apply Forall2_concat in P2 as (mss & -> & P2). rewrite concat_app in S.
  assert (E1 : List.concat m1 = []).
  { assert (B := D_before _ _ _ _ _ _ _ _ _ _ _ _ _ D). destruct (_ && _)%bool in B; subst before; inversion P1 as [|? ? ? ? E P1']; subst; [inversion P1'|]; reflexivity. }
  rewrite E1 in S. cbn [app] in S. exists (map (@List.concat _) mss). split.
  { replace (List.concat (map (@List.concat _) mss)) with (List.concat (List.concat mss)); [exact S|]. clear. induction mss as [|m mss IH]; [reflexivity|]. cbn. rewrite concat_app, IH. reflexivity. }
  assert (L : List.length (map (@List.concat (drawing (F:=F))) mss) = List.length (t_rows t)).
  { rewrite map_length, <- (Forall2_length P2). exact (D_count _ _ _ _ _ _ _ _ _ _ _ _ _ D). }
  split; [exact L|]. intros i b Hb. rewrite nth_error_map in Hb. destruct (nth_error mss i) as [m|] eqn:Em; [|discriminate Hb]. injection Hb as <-.
  destruct (nth_error blocks i) as [bl|] eqn:Eb.
  2:{ exfalso. apply nth_error_None in Eb. rewrite (Forall2_length P2) in Eb. apply nth_error_None in Eb. congruence. }
  assert (Pm := Forall2_nth _ _ _ _ _ P2 i bl m Eb Em).
  destruct (D_block _ _ _ _ _ _ _ _ _ _ _ _ _ D i bl Eb) as (y & [->|(hs & -> & Hh)]).
  - inversion Pm as [|? r ? ? Hr Pn]; subst. inversion Pn; subst. exists [], r. cbn. rewrite app_nil_r. split; [reflexivity|]. split; [exact Hr|left; reflexivity].
  - inversion Pm as [|? z ? ? Hz Pn]; subst. apply Forall2_app_inv_l in Pn as (ns & nr & Pn & Pr & ->). inversion Pr as [|? r ? ? Hr Pe]; subst. inversion Pe; subst.
    exists ns, r. cbn [List.concat app]. rewrite concat_app. cbn [List.concat]. rewrite app_nil_r. split; [reflexivity|]. split; [exact Hr|].
    unfold headers in Hh. destruct (0 <? i) eqn:Ei; [|inversion Hh; subst; inversion Pn; left; reflexivity]. right. apply Nat.ltb_lt in Ei. split; [exact Ei|].
    split; [rewrite <- (Forall2_length Pn), <- (Forall2_length Hh), seq_length, L; reflexivity|].
    intros k hk Hk. assert (Lk : k < List.length ns) by (apply nth_error_Some; congruence). rewrite <- (Forall2_length Pn) in Lk.
    destruct (nth_error hs k) as [sp|] eqn:Es; [|apply nth_error_None in Es; lia]. assert (G := Forall2_nth _ _ _ _ _ Pn k sp hk Es Hk).
    rewrite <- (Forall2_length Hh) in Lk. destruct (nth_error (seq 0 (Nat.min (Z.to_nat rh) (List.length (t_rows t)))) k) as [n|] eqn:En; [|apply nth_error_None in En; lia].
    destruct (Forall2_nth _ _ _ _ _ Hh k n sp En Es) as (y2 & ->). rewrite seq_length in Lk. rewrite (nth_error_nth' _ 0) in En by (rewrite seq_length; exact Lk). rewrite seq_nth in En by exact Lk. injection En as <-. exact G.
Qed.
End Table.
Lemma table_says : forall st rh xrows (s s' : PS), ambient s -> renderTable env callback (XTable st rh xrows) s = Ok tt s' ->
  exists l, draws_table env st rh xrows l /\ says l s s'.
Proof.
  intros st rh xrows s s' Hs H. destruct (renderTable_schedule _ _ _ _ _ _ _ H) as (h & t & s1 & HT & K).
  assert (Q1 : silent s s1) by (assert (G := q_transform st xrows s Hs); rewrite HT in G; exact G). assert (A1 := Hinv _ _ Hs Q1).
  assert (QR : forall a : PS, ambient a -> silent a (snd (resetStyles a))) by (intros a Ha; exact (q_reset a Ha)).
  destruct K as [[Z ->]|(_ & before & blocks & s2 & y' & K)].
  - exists []. split; [|apply silent_says; exact (silent_trans _ _ _ Q1 (QR _ A1))].
    exists (ps_sty s), (repeat [] (List.length xrows)). split; [exact Hs|]. split; [induction (List.length xrows) as [|n IH]; [reflexivity|exact IH]|]. rewrite repeat_length. split; [lia|].
    intros i b Hb. exists [], []. assert (b = []) as -> by (apply (repeat_spec (List.length xrows)); exact (nth_error_In _ _ Hb)). split; [reflexivity|]. split; [|left; reflexivity].
    apply (row_draws st xrows s s1 h t HT i []). assert (E : cells (t_rows t) i = []); [|rewrite E; constructor].
    destruct (rectangle _ _ _ _ _ _ _ HT) as [RL _]. destruct (Nat.lt_ge_cases i (List.length (t_rows t))) as [Hi|Hi].
    + specialize (RL i Hi). rewrite Z in RL. apply length_zero_iff_nil in RL. exact RL.
    + unfold cells. apply nth_error_None in Hi. rewrite Hi. reflexivity.
  - destruct (printableArea (ps_eng s1)) as [[[? ?] ?] bottom]. destruct K as [D ->]. destruct (schedule_says _ _ _ _ _ _ HT _ _ _ _ _ _ _ _ _ A1 D) as (bs & S & L & B).
    exists (List.concat bs). split.
    + exists (ps_sty s), bs. split; [exact Hs|]. split; [reflexivity|]. split; [|exact B]. rewrite L.
      apply (proj1 (proj1 (row_count _ _ _ _ _ _ _ HT (List.length (t_rows t))) (le_n _))).
    + assert (A2 := proj1 S A1). eapply says_before; [exact Q1|]. eapply says_after; [exact S|]. rewrite emit_eq. cbn [snd]. apply (silent_trans _ (emitted (SetY y') s2)); [apply (silent_emit (SetY y')); reflexivity|]. apply QR. exact A2.
Qed.

(** Instructions. *)
Lemma page_eq_silent : forall (pg : Page F) (s s1 : PS), lift page_now s = Ok pg s1 -> s1 = s.
Proof. intros pg s s1 H. apply lift_ok in H. destruct (page_now_eq s) as [pg' E]. rewrite E in H. injection H as _ <-. reflexivity. Qed.
Lemma instruction_says : forall i (s s' : PS), ambient s -> processInstruction env callback i s = Ok tt s' -> exists l, draws env i l /\ says l s s'.
Proof.
  intros i s s' Hs H.
  assert (N : forall m : St eng unit, quietly m -> lift m s = Ok tt s' -> exists l, l = [] /\ says l s s').
  { intros m Hm E. exists []. split; [reflexivity|]. apply silent_says. exact (lift_silent _ _ Hm _ _ _ Hs E). }
  assert (E : forall c, lift (emit c) s = Ok tt s' -> visible (Simple c) = false -> exists l, l = [] /\ says l s s') by (intros c K V; exact (N _ (q_emit c V) K)).
  assert (O : s = s' -> exists l, l = [] /\ says l s s').
  { intros <-. exists []. split; [reflexivity|apply silent_says, silent_refl]. }
  destruct i as [st|v|v|v|st iss|st iss|st src|t|st t| | |[st rh xrows]|r|c|st rows parts|r|q]; cbn [processInstruction] in H; cbn [draws].
  - apply bind_ok in H as (y & sa & H1 & H). apply lift_ok in H1. injection H1 as <- <-. exact (N _ (q_font _) H).
  - exact (E _ H eq_refl).
  - exact (E _ H eq_refl).
  - exact (E _ H eq_refl).
  - apply bind_ok in H as (pg & sa & H1 & H). apply page_eq_silent in H1. subst sa. eexists. split; [exists (ps_sty s); split; [exact Hs|reflexivity]|]. exact (box_says _ _ _ _ _ Hs H).
  - eexists. split; [exists (ps_sty s); split; [exact Hs|reflexivity]|]. exact (text_says _ _ _ _ Hs H).
  - apply bind_ok in H as (pg & sa & H1 & H). apply page_eq_silent in H1. subst sa. exists [DImage src]. split; [reflexivity|exact (image_says _ _ _ _ _ H)].
  - injection H as H. exact (O H).
  - injection H as H. exact (O H).
  - injection H as H. exact (O H).
  - exists []. split; [reflexivity|]. apply silent_says. assert (G := page_silent s Hs). rewrite H in G. exact G.
  - exact (table_says _ _ _ _ _ Hs H).
  - injection H as H. exact (O H).
  - injection H as H. exact (O H).
  - apply O. destruct (render_grid _ _); try discriminate H; injection H as <-; reflexivity.
  - injection H as H. exact (O H).
  - injection H as H. exact (O H).
Qed.
Lemma instructions_say : forall iss (s s' : PS), ambient s -> processInstructions env callback iss s = Ok tt s' ->
  exists ls, Forall2 (draws env) iss ls /\ says (List.concat ls) s s'.
Proof.
  induction iss as [|i iss IH]; intros s s' Hs H; cbn [processInstructions] in H.
  { injection H as <-. exists []. split; [constructor|apply silent_says, silent_refl]. }
  apply bind_ok in H as ([] & s1 & H1 & H). destruct (instruction_says _ _ _ Hs H1) as (l & P & S). destruct (IH _ _ (proj1 S Hs) H) as (ls & Ps & Ss).
  exists (l :: ls). split; [constructor; assumption|]. exact (says_app _ _ _ _ _ S Ss).
Qed.

Definition left_by (iss : list (instr F)) (s s' : PS) : Prop := ambient s' /\ exists evs, ps_trace s' = ps_trace s ++ evs /\
  forall p, Rel p (ps_eng s) -> Rel (after p evs) (ps_eng s') /\ calls_good p evs /\ paints ob iss p evs.
Lemma left_after : forall iss a b c, left_by iss a b -> silent b c -> left_by iss a c.
Proof.
  intros iss a b c [A (e1 & T1 & G1)] [B (e2 & T2 & G2)]. split; [auto|]. exists (e1 ++ e2). rewrite T2, T1, app_assoc. split; [reflexivity|].
  intros p Hp. destruct (G1 p Hp) as (R1 & C1 & ls & outs & W3 & W4 & W5). destruct (G2 _ R1) as (R2 & C2 & W2). rewrite after_app. split; [exact R2|]. split; [apply good_app; assumption|].
  exists ls, outs. split; [exact W3|]. split; [exact W4|]. rewrite ink_app, W2, app_nil_r. exact W5.
Qed.
Lemma left_before : forall iss a b c, silent a b -> left_by iss b c -> left_by iss a c.
Proof.
  intros iss a b c [A (e1 & T1 & G1)] [B (e2 & T2 & G2)]. split; [auto|]. exists (e1 ++ e2). rewrite T2, T1, app_assoc. split; [reflexivity|].
  intros p Hp. destruct (G1 p Hp) as (R1 & C1 & W1). destruct (G2 _ R1) as (R2 & C2 & ls & outs & W3 & W4 & W5). rewrite after_app. split; [exact R2|]. split; [apply good_app; assumption|].
  exists ls, outs. split; [exact W3|]. split; [exact W4|]. rewrite ink_app, W1. exact W5.
Qed.
Lemma says_writes : forall iss s s', ambient s -> processInstructions env callback iss s = Ok tt s' -> left_by iss s s'.
Proof.
  intros iss s s' Hs H. destruct (instructions_say _ _ _ Hs H) as (ls & P & A & evs & T & G).
  split; [exact (A Hs)|]. exists evs. split; [exact T|]. intros p Hp. destruct (G p Hp) as (R1 & C1 & outs & O & W). split; [exact R1|]. split; [exact C1|]. exists ls, outs. repeat split; assumption.
Qed.
Lemma callback_says : forall c s s', ambient s -> run_callback env callback c s = Ok tt s' -> left_by (match c with Header => e_header env | Footer => e_footer env end) s s'.
Proof.
  intros c s s' Hs H. unfold run_callback in H.
  apply bind_ok in H as (xy & s0 & H0 & H). apply lift_ok in H0. injection H0 as <- <-.
  apply bind_ok in H as ([] & s1 & Hp & H). apply lift_ok in Hp. injection Hp as <-.
  apply bind_ok in H as ([] & s2 & Hi & H). assert (L := says_writes _ (set_prevent true s) s2 Hs Hi). assert (A := proj1 L).
  apply bind_ok in H as ([] & s3 & H1 & H). assert (Q1 := emit_silent _ _ _ _ A H1 eq_refl).
  apply bind_ok in H as ([] & s4 & H2 & H). assert (Q2 := emit_silent _ _ _ _ (Hinv _ _ A Q1) H2 eq_refl).
  apply lift_ok in H. injection H as <-. assert (Q := silent_trans _ _ _ Q1 Q2).
  apply (left_before _ s (set_prevent true s)); [apply silent_same; auto|]. apply (left_after _ _ s2); [exact L|]. apply (silent_trans _ s4); [exact Q|]. apply silent_same; auto.
Qed.
End Callback.
End Run.

(** ** Callbacks and documents *)
Section Doc.
Context {F : Num} (env : Env F) {eng : Engine F}.
Local Notation PS := (PS F eng).
Hypothesis Hplace : places eng.
Hypothesis Hpage : page_stable (eng:=eng).
Hypothesis Hshuffle : forall l, Permutation (e_shuffle env l) l.
Variable ob : Watcher env eng.
Let Good (c : cb) (p : Pen ob) (evs : list (event F)) : Prop := paints ob (match c with Header => e_header env | Footer => e_footer env end) p evs.
Lemma callbacks_good : forall depth c (s : PS) p, ambient s -> ps_trace s = [] -> Rel ob p (ps_eng s) ->
  match callbacks env depth c s with Ok _ s' => ambient s' /\ Good c p (ps_trace s') /\ calls_good env ob Good p (ps_trace s') /\ Rel ob (after ob p (ps_trace s')) (ps_eng s') | Panic => False | Diverge => True end.
Proof.
  induction depth as [|d IH]; intros c s p Hs H0 Hp; [exact I|]. assert (N := callbacks_no_panic env Hshuffle (S d) c s). cbn [callbacks] in *.
  destruct (run_callback env (callbacks env d) c s) as [[] s'| |] eqn:E; [|congruence|exact I].
  destruct (callback_says env Hplace Hpage ob Good (callbacks env d) IH c s s' Hs E) as (A & evs & T & G).
  rewrite H0 in T. cbn in T. subst evs. destruct (G p Hp) as (R1 & C1 & W). split; [exact A|]. split; [exact W|]. split; [exact C1|exact R1].
Qed.
Lemma process_paints : forall depth e r (s' : PS), process env depth e = Ok r s' -> forall p, Rel ob p e ->
  paints ob (e_body env) p (ps_trace s') /\
  forall c q sub, call_at (after ob) (enter ob) p (ps_trace s') c q sub -> paints ob (match c with Header => e_header env | Footer => e_footer env end) q sub.
Proof.
  intros depth e r s' H. unfold process, process_body in H. assert (HC := callbacks_good depth). set (cl := callbacks env depth) in *. clearbody cl.
  assert (A0 : ambient (initial (eng:=eng) e)) by (exists (SFont DefaultStyle); reflexivity).
  assert (QE := @emit_silent F env eng ob Good). assert (LS := @lift_silent F env eng ob Good). assert (ST := silent_trans env ob Good).
  apply bind_ok in H as ([] & s1 & E1 & H). apply (QE _ _ _ _ A0) in E1; [|reflexivity].
  apply bind_ok in H as ([] & s2 & E2 & H). apply (QE _ _ _ _ (proj1 E1 A0)) in E2; [|reflexivity]. assert (Q2 := ST _ _ _ E1 E2). clear E1 E2.
  apply bind_ok in H as ([] & s3 & E3 & H). apply (QE _ _ _ _ (proj1 Q2 A0)) in E3; [|reflexivity]. assert (Q3 := ST _ _ _ Q2 E3). clear Q2 E3.
  apply bind_ok in H as (y & s3' & E & H). apply lift_ok in E. injection E as <- <-.
  apply bind_ok in H as ([] & s4 & E4 & H). apply (LS _ _ (q_font env ob Good _) _ _ _ (proj1 Q3 A0)) in E4. assert (Q4 := ST _ _ _ Q3 E4). clear Q3 E4.
  apply bind_ok in H as ([] & s5 & E5 & H). assert (G5 := page_silent env ob Good cl HC s4 (proj1 Q4 A0)). rewrite E5 in G5. assert (Q5 := ST _ _ _ Q4 G5). clear Q4 G5 E5.
  apply bind_ok in H as ([] & s6 & E6 & H). assert (L := says_writes env Hplace Hpage ob Good cl HC _ _ _ (proj1 Q5 A0) E6).
  assert (K : silent env ob Good s6 s').
  { apply bind_ok in H as (er & s6' & E & H). apply lift_ok in E. injection E as <- <-. destruct (engError (ps_eng s6)).
    - injection H as _ <-. apply silent_refl.
    - apply bind_ok in H as ([] & s7 & E7 & H). apply lift_ok in H. injection H as _ <-. unfold write_pdf in E7.
      assert (G7 := command_good env ob Good cl HC WritePDF writePDF s6 ltac:(discriminate) (rel_pdf _ _ ob) (proj1 L)). rewrite E7 in G7. destruct G7 as (A7 & calls & T7 & G7).
      split; [intros _; exact A7|]. exists [Ev WritePDF calls]. split; [exact T7|]. intros p Hp. destruct (G7 p Hp) as [R1 C1]. split; [exact R1|]. split; [exact C1|]. apply ink_quiet. reflexivity. }
  assert (Z := left_before env ob Good _ _ _ _ Q5 (left_after env ob Good _ _ _ _ L K)). destruct Z as (_ & evs & T & G). cbn [initial ps_trace app] in T. subst evs.
  intros p Hp. destruct (G p Hp) as (_ & C1 & W). split; [exact W|exact C1].
Qed.
End Doc.
