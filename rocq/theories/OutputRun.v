(** Documents as a whole, for any account of what the texts written leave on the page (C89, C90, C102, C103). *)
From Coq Require Import Lia Permutation.
From Verif Require Import GoStr GoStrFacts Num Style Class Instr Engine Layout LayoutFacts Grid Table Lines LinesSpec LinesLink LinesView LinesThms WriteSpec WriteFacts Proc EngineFacts TableView TableSpec TableThms DrawSpec DrawFacts ProcInv ProcFrame ProcView ProcSpec ProcThms ProcThms2 ProcThms3 CellSpec CellThms OutputSpec PaintSpec.
From Verif Require Export PaintRun.
Local Open Scope nat_scope.

(** An observer of the texts: what it sees of engine calls, starting with a pen; the pen after
    them, and at the beginning of a callback; which pens go with a state of the engine; and what
    is seen of a text. *)
Record Observer {F : Num} (env : Env F) (eng : Engine F) := mkObserver {
  X : Type;
  Pen : Type;
  ink : Pen -> list (event F) -> list X;
  after : Pen -> list (event F) -> Pen;
  enter : cb -> Pen -> Pen;
  Rel : Pen -> est eng -> Prop;
  tout : Styles F -> list (instr F) -> list X -> Prop;
  ink_nil : forall p, ink p [] = [];
  ink_app : forall p a b, ink p (a ++ b) = ink p a ++ ink (after p a) b;
  ink_quiet : forall p c calls, (forall t, c <> WriteText t) -> ink p [Ev c calls] = [];
  after_nil : forall p, after p [] = p;
  after_app : forall p a b, after p (a ++ b) = after (after p a) b;
  rel_any : forall e, exists p, Rel p e;
  rel_simple : forall p e c, Rel p e -> Rel (after p [Ev (Simple c) []]) (simple c e);
  rel_event : forall p e c calls, (forall c', c <> Simple c') -> Rel (fold_left (fun p x => after (enter (fst x) p) (snd x)) calls p) e -> Rel (after p [Ev c calls]) e;
  rel_page : forall p e, Rel p e -> (fix follows p prog := match prog with EDone e => Rel p e | ECall c e k => Rel (enter c p) e /\ forall q e', Rel q e' -> follows q (k e') end) p (addPage e);
  rel_write : forall t p e, Rel p e -> (fix follows p prog := match prog with EDone e => Rel p e | ECall c e k => Rel (enter c p) e /\ forall q e', Rel q e' -> follows q (k e') end) p (Engine.writeText t e);
  rel_pdf : forall p e, Rel p e -> (fix follows p prog := match prog with EDone e => Rel p e | ECall c e k => Rel (enter c p) e /\ forall q e', Rel q e' -> follows q (k e') end) p (writePDF e);
  tout_nil : forall sty, tout sty [] [];
  tout_text : forall sty iss width x (s : PS F eng) evs, text_written env sty iss width x s (map ev_cmd evs) ->
    forall p, Rel p (ps_eng s) -> exists o, tout sty iss o /\ ink p evs = o
}.
Arguments X {F env eng}. Arguments Pen {F env eng}. Arguments ink {F env eng}. Arguments after {F env eng}. Arguments enter {F env eng}. Arguments Rel {F env eng}. Arguments tout {F env eng}.
(** It sees nothing of frames and images. *)
Section Watch.
Context {F : Num} {env : Env F} {eng : Engine F} (ob : Observer env eng).
Lemma plain_nothing : forall (l : list (scmd F)) p, ink ob p (plain l) = [].
Proof.
  induction l as [|c l IH]; intros p; [apply ink_nil|]. change (plain (c :: l)) with ([Ev (Simple c) []] ++ plain (F:=F) l). rewrite ink_app, IH, app_nil_r. apply ink_quiet. discriminate.
Qed.
Lemma plain_rel : forall (l : list (scmd F)) (s : PS F eng) p, Rel ob p (ps_eng s) -> Rel ob (after ob p (plain l)) (ps_eng (emits l s)).
Proof.
  induction l as [|c l IH]; intros s p Hp; [rewrite (after_nil _ _ ob); exact Hp|]. change (plain (c :: l)) with ([Ev (Simple c) []] ++ plain (F:=F) l). rewrite after_app, emits_cons. apply IH. exact (rel_simple _ _ ob _ _ _ Hp).
Qed.
Definition watch : Watcher env eng.
Proof.
  refine (mkWatcher F env eng (X ob) (Pen ob) (ink ob) (after ob) (enter ob) (Rel ob) (fun d o => match d with DText sty iss => tout ob sty iss o | _ => o = [] end)
    (ink_nil _ _ ob) (ink_app _ _ ob) _ (after_nil _ _ ob) (after_app _ _ ob) (rel_any _ _ ob) (fun p e c _ => rel_simple _ _ ob p e c) (rel_event _ _ ob) (rel_page _ _ ob) (rel_write _ _ ob) (rel_pdf _ _ ob)
    (tout_nil _ _ ob) (tout_text _ _ ob) _ _ _ _ _).
  - intros p c calls V. apply ink_quiet. intros t ->. discriminate V.
  - intros. apply plain_nothing.
  - intros sty x0 y0 x1 y1 s p Hp. apply plain_rel. exact Hp.
  - intros p e source x y w h Hp. apply (rel_simple _ _ ob). exact Hp.
  - intros. apply plain_nothing.
  - reflexivity.
Defined.
End Watch.

(** The texts among the drawings. *)
Definition texts_of {F : Num} (l : list (drawing (F:=F))) : list (styled_text (F:=F)) := flat_map (fun d => match d with DText sty iss => [(sty, iss)] | _ => [] end) l.
Section Texts.
Context {F : Num} (env : Env F).
Lemma texts_app : forall a b : list (drawing (F:=F)), texts_of (a ++ b) = texts_of a ++ texts_of b.
Proof. intros. apply flat_map_app. Qed.
Lemma texts_concat : forall ls : list (list (drawing (F:=F))), texts_of (List.concat ls) = List.concat (map texts_of ls).
Proof. induction ls as [|l ls IH]; [reflexivity|]. cbn [List.concat map]. rewrite texts_app, IH. reflexivity. Qed.
Lemma children_texts : forall iss l, draws_children env iss l -> shows_boxes env iss (texts_of l).
Proof.
  intros iss l H. induction H as [|st biss iss l sty A H IH|st source iss l H IH|i iss l N1 N2 H IH]; cbn [texts_of flat_map app]; [constructor|constructor; assumption| |constructor; assumption].
  constructor; [discriminate|exact IH].
Qed.
Lemma cell_texts : forall row n k c l, draws_cell env row n k c l -> shows_cell env row n k c (texts_of l).
Proof.
  intros row n k [st cs rs iss] l (l' & -> & H). unfold shows_cell. cbv zeta. exists (texts_of l'). split; [reflexivity|exact (children_texts _ _ H)].
Qed.
Lemma row_texts : forall tab n i r l, draws_row env tab n i r l -> shows_row env tab n i r (texts_of l).
Proof.
  intros tab n i [st cells] l (ls & -> & L & H). exists (map texts_of ls). split; [apply texts_concat|]. rewrite map_length. split; [exact L|].
  intros k c lk Hc Hk. rewrite nth_error_map in Hk. destruct (nth_error ls k) as [l0|] eqn:E; [|discriminate Hk]. injection Hk as <-. exact (cell_texts _ _ _ _ _ (H k c l0 Hc E)).
Qed.
Lemma nth_texts : forall tab rows i l, draws_nth env tab rows i l -> shows_nth env tab rows i (texts_of l).
Proof. intros tab rows i l H. unfold draws_nth, shows_nth in *. destruct (nth_error rows i); [exact (row_texts _ _ _ _ _ H)|rewrite H; reflexivity]. Qed.
Lemma table_texts : forall st rh rows l, draws_table env st rh rows l -> shows_table env st rh rows (texts_of l).
Proof.
  intros st rh rows l (sty & bs & A & -> & L & H). exists sty, (map texts_of bs). split; [exact A|]. split; [apply texts_concat|]. rewrite map_length. split; [exact L|].
  intros i b Hb. rewrite nth_error_map in Hb. destruct (nth_error bs i) as [b0|] eqn:E; [|discriminate Hb]. injection Hb as <-. destruct (H i b0 E) as (hs & r & -> & R1 & K).
  exists (map texts_of hs), (texts_of r). rewrite texts_app, texts_concat. split; [reflexivity|]. split; [exact (nth_texts _ _ _ _ R1)|]. destruct K as [->|(P & N & K)]; [left; reflexivity|]. right. split; [exact P|]. rewrite map_length. split; [exact N|].
  intros k h Hk. rewrite nth_error_map in Hk. destruct (nth_error hs k) as [h0|] eqn:Eh; [|discriminate Hk]. injection Hk as <-. exact (nth_texts _ _ _ _ (K k h0 Eh)).
Qed.
Lemma draws_shows : forall i l, draws env i l -> shows env i (texts_of l).
Proof.
  intros i l H. destruct i as [st|v|v|v|st iss|st iss|st src|t|st t| | |[st rh xrows]|r|c|st rows parts|r|q]; cbn [draws shows] in *; try (rewrite H; reflexivity).
  - destruct H as (sty & A & ->). exists sty. split; [exact A|reflexivity].
  - destruct H as (sty & A & ->). exists sty. split; [exact A|reflexivity].
  - exact (table_texts _ _ _ _ H).
Qed.
End Texts.

(** The texts of the instructions are seen in order, starting with the pen [p]. *)
Definition leaves {F : Num} {env : Env F} {eng : Engine F} (ob : Observer env eng) (iss : list (instr F)) (p : Pen ob) (evs : list (event F)) : Prop :=
  exists ls outs, Forall2 (shows env) iss ls /\ Forall2 (fun p o => tout ob (fst p) (snd p) o) (List.concat ls) outs /\ ink ob p evs = List.concat outs.
Section Doc.
Context {F : Num} (env : Env F) {eng : Engine F}.
Local Notation PS := (PS F eng).
Hypothesis Hplace : places eng.
Hypothesis Hpage : page_stable (eng:=eng).
Hypothesis Hshuffle : forall l, Permutation (e_shuffle env l) l.
Variable ob : Observer env eng.
Lemma paints_leaves : forall iss p evs, paints (watch ob) iss p evs -> leaves ob iss p evs.
Proof.
  intros iss p evs (ls & outs & S & D & E). cbn [watch dout PaintRun.X PaintRun.ink] in *.
  assert (K : forall ds os, Forall2 (fun d o => match d with DText sty iss => tout ob sty iss o | _ => o = [] end) ds os -> exists os', Forall2 (fun p o => tout ob (fst p) (snd p) o) (texts_of ds) os' /\ List.concat os = List.concat os').
  { intros ds os H. induction H as [|d o ds os Hd H (os' & IH & C)]; [exists []; split; [constructor|reflexivity]|]. destruct d as [sty|sty is|src]; cbn [texts_of flat_map app List.concat].
    - rewrite Hd. exists os'. split; [exact IH|exact C].
    - exists (o :: os'). split; [constructor; [exact Hd|exact IH]|]. cbn. rewrite C. reflexivity.
    - rewrite Hd. exists os'. split; [exact IH|exact C]. }
  destruct (K _ _ D) as (os' & T & C). rewrite texts_concat in T. exists (map texts_of ls), os'. split; [|split; [exact T|rewrite <- C; exact E]].
  clear - S. induction S as [|i l iss ls H S IH]; [constructor|]. constructor; [exact (draws_shows env _ _ H)|exact IH].
Qed.
Lemma process_leaves : forall depth e r (s' : PS), process env depth e = Ok r s' -> forall p, Rel ob p e ->
  leaves ob (e_body env) p (ps_trace s') /\
  forall c q sub, call_at (after ob) (enter ob) p (ps_trace s') c q sub -> leaves ob (match c with Header => e_header env | Footer => e_footer env end) q sub.
Proof.
  intros depth e r s' H p Hp. destruct (process_paints env Hplace Hpage Hshuffle (watch ob) depth e r s' H p Hp) as [A B]. split; [exact (paints_leaves _ _ _ A)|].
  intros c q sub K. exact (paints_leaves _ _ _ (B c q sub K)).
Qed.
End Doc.
