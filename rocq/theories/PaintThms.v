(** Proofs about everything a document draws (C108). *)
From Coq Require Import Lia Permutation.
From Verif Require Import GoStr GoStrFacts Num Style Class Instr Engine Layout LayoutSpec LayoutFacts Lines LinesSpec LinesView WriteSpec WriteFacts Proc EngineFacts DrawSpec ProcSpec ProcMeasure ProcThms2 ProcThms3 CellSpec OutputSpec OutputThms PaintSpec PaintRun.
Local Open Scope nat_scope.

Section Marks.
Context {F : Num}.
Lemma pen_event_calls : forall c (calls : list (cb * list (event F))) p, (forall c', c <> Simple c') ->
  pen_event p (Ev c calls) = fold_left (fun p x => pen_events p (snd x)) calls p.
Proof.
  intros c calls p N. assert (A : forall evs q, (fix all (p : pen (F:=F)) (evs : list (event F)) : pen (F:=F) := match evs with [] => p | e' :: evs' => all (pen_event p e') evs' end) q evs = pen_events q evs).
  { induction evs as [|e evs IH]; intros q; [reflexivity|]. cbn [pen_events fold_left]. apply IH. }
  destruct c as [c'| | |]; [exfalso; exact (N c' eq_refl)|..]; cbn [pen_event]; (revert p; induction calls as [|[c0 sub] calls IH]; intros p; [reflexivity|]; cbn [fold_left snd]; rewrite <- A; apply IH).
Qed.
Lemma seen_app : forall (a b : list (event F)) p, seen p (a ++ b) = seen p a ++ seen (pen_events p a) b.
Proof. induction a as [|e a IH]; intros b p; [reflexivity|]. cbn [app seen pen_events fold_left]. rewrite IH, app_assoc. reflexivity. Qed.
Lemma with_at : forall p (evs : list (event F)) c q sub, call_with p evs c q sub -> call_at pen_events (fun _ p => p) p evs c q sub
with called_with_at : forall p (calls : list (cb * list (event F))) c q sub, called_with p calls c q sub -> called_at pen_events (fun _ p => p) p calls c q sub.
Proof.
  - intros p evs c q sub H. destruct H as [p e evs c q sub H|p cm calls evs c q sub H]; [apply A_later; apply with_at; exact H|apply A_now; apply called_with_at; exact H].
  - intros p calls c q sub H. destruct H as [p calls c sub|p calls c sub c' q sub' H|p calls c sub c' q sub' H].
    + exact (D_this (Pen:=pen) pen_events (fun _ p => p) p calls c sub).
    + apply D_deep. apply with_at. exact H.
    + apply D_later. apply called_with_at. exact H.
Qed.
Lemma quiet_mark : forall p (c : cmd F), visible c = false -> mark_cmd p c = [].
Proof. intros p [c| | |] V; try reflexivity; [|discriminate V]. destruct c; try reflexivity; discriminate V. Qed.
Lemma quiet_pen : forall p (c : scmd F), visible (Simple c) = false -> pen_cmd p c = p.
Proof. intros p c V. destruct c; try reflexivity; discriminate V. Qed.

(** The commands of a text. *)
Definition wordy (c : cmd F) : Prop := match c with Simple c' => visible (Simple c') = false | WriteText _ => True | _ => False end.
Lemma wordy_seen : forall (evs : list (event F)) p, Forall wordy (map ev_cmd evs) -> seen p evs = map Written (written evs).
Proof.
  induction evs as [|[c calls] evs IH]; intros p H; [reflexivity|]. cbn [map ev_cmd] in H. inversion H as [|? ? H1 H2]; subst. cbn [seen written flat_map ev_cmd]. rewrite map_app, (IH _ H2).
  destruct c as [c| |t|]; [rewrite (quiet_mark p (Simple c) H1); reflexivity|destruct H1|reflexivity|destruct H1].
Qed.
Lemma plain_wordy : forall its : list (textItem F), Forall wordy (plain_items its).
Proof. induction its as [|it its IH]; [constructor|]. cbn. constructor; [reflexivity|]. constructor; [exact I|]. exact IH. Qed.
Lemma moved_wordy : forall (its : list (textItem F)) xs, Forall wordy (moved_items its xs).
Proof.
  induction its as [|it its IH]; [intros; constructor|]. intros [|x xs]; [constructor|]. unfold moved_items. cbn. constructor; [reflexivity|]. constructor; [exact I|]. constructor; [reflexivity|]. apply IH.
Qed.
Lemma line_wordy : forall sty w x (l : textLine F), Forall wordy (line_cmds sty w x l).
Proof.
  intros. unfold line_cmds. apply Forall_app. split; [unfold line_start; repeat destruct (beqb _ _); repeat constructor|]. apply Forall_app. split; [apply plain_wordy|repeat constructor].
Qed.
Lemma block_wordy : forall sty x (l : textLine F) cs, block_cmds sty x l cs -> Forall wordy cs.
Proof.
  intros sty x l cs H. unfold block_cmds in H. destruct (stretched l); [destruct H as (xs & _ & ->)|subst cs]; (constructor; [reflexivity|]); apply Forall_app; (split; [|repeat constructor]); [apply moved_wordy|apply plain_wordy].
Qed.
Lemma start_wordy : forall (sty : Styles F) fs, Forall wordy (start_cmds sty fs).
Proof. intros. repeat (constructor; [reflexivity|]). induction fs as [|f fs IH]; constructor; [reflexivity|exact IH]. Qed.
Lemma written_wordy : forall env (eng : Engine F) sty iss width x (s : PS F eng) cmds, text_written env sty iss width x s cmds -> Forall wordy cmds.
Proof.
  intros env eng sty iss width x s cmds H. unfold text_written in H. destruct (beqb _ _).
  - destruct H as (lines & s1 & css & _ & C & ->). apply Forall_app. split; [apply start_wordy|]. clear - C. induction C as [|l cs lines css Hl C IH]; [constructor|]. cbn. apply Forall_app. split; [exact (block_wordy _ _ _ _ Hl)|exact IH].
  - destruct H as (lines & s1 & _ & ->). apply Forall_app. split; [apply start_wordy|]. clear. induction lines as [|l lines IH]; [constructor|]. cbn. apply Forall_app. split; [apply line_wordy|exact IH].
Qed.

(** The commands of a frame. *)
Lemma plain_seen : forall (l : list (scmd F)) p, seen p (plain l) = map Shape (paint p (map Simple l)).
Proof.
  assert (K : forall c (l : list (scmd F)) p, paint p (Simple c :: map Simple l) = paint p [Simple c] ++ paint (pen_cmd p c) (map Simple l)) by (intros c l p; destruct c; reflexivity).
  induction l as [|c l IH]; intros p; [reflexivity|]. change (plain (c :: l)) with (Ev (Simple c) [] :: plain (F:=F) l). cbn [seen ev_cmd map mark_cmd pen_event]. rewrite K, map_app, IH. reflexivity.
Qed.
Lemma box_pen : forall x0 y0 x1 y1 (sty : Styles F) p, new_pen (pen_events p (plain (box_cmds x0 y0 x1 y1 sty))).
Proof.
  intros. unfold box_cmds. cbv zeta. unfold new_pen, pen_events, plain. cbn [map fold_left pen_event]. cbn [pen_cmd p_segs]. reflexivity.
Qed.
End Marks.

Section Doc.
Context {F : Num} (env : Env F) {eng : Engine F}.
Hypothesis Hplace : places eng.
Hypothesis Hpage : page_stable (eng:=eng).
Hypothesis Hshuffle : forall l, Permutation (e_shuffle env l) l.
Definition marks_watcher : Watcher env eng.
Proof.
  refine (mkWatcher F env eng mark pen seen pen_events (fun _ p => p) (fun p _ => new_pen p) (looks env) _ _ _ _ _ _ _ _ _ _ _ _ _ _ _ _ _ _).
  - reflexivity.
  - intros. apply seen_app.
  - intros p c calls V. cbn [seen ev_cmd]. rewrite (quiet_mark p c V). reflexivity.
  - reflexivity.
  - intros. apply fold_left_app.
  - intros e. exists (mkPen (F:=F) zero (mkRGB 0 0 0) (mkRGB 0 0 0) (zero, zero) []). reflexivity.
  - intros p e c V Hp. unfold pen_events. cbn [fold_left pen_event]. rewrite (quiet_pen p c V). exact Hp.
  - intros p e c calls N Hp. unfold pen_events at 1. cbn [fold_left]. rewrite pen_event_calls by exact N. exact Hp.
  - intros p e Hp. revert p Hp. induction (addPage e) as [e0|c e0 k IH]; intros q Hq; [exact Hq|split; [exact Hq|]]. intros. apply IH. assumption.
  - intros t p e Hp. revert p Hp. induction (Engine.writeText t e) as [e0|c e0 k IH]; intros q Hq; [exact Hq|split; [exact Hq|]]. intros. apply IH. assumption.
  - intros p e Hp. revert p Hp. induction (writePDF e) as [e0|c e0 k IH]; intros q Hq; [exact Hq|split; [exact Hq|]]. intros. apply IH. assumption.
  - intros sty. exists []. split; [reflexivity|apply written_nil].
  - intros sty iss width x s evs W p _. eexists. split; [|exact (wordy_seen evs p (written_wordy _ _ _ _ _ _ _ _ W))]. exists (written evs). split; [reflexivity|]. rewrite written_cmds. exact (written_out env Hpage _ _ _ _ _ _ W).
  - intros sty x0 y0 x1 y1 s p Hp. exists x0, y0, x1, y1. rewrite plain_seen, (box_paint _ _ _ _ _ _ Hp). reflexivity.
  - intros. apply box_pen.
  - intros p e source x y w h Hp. exact Hp.
  - intros source x y w h wh p E. unfold looks. rewrite E. exists x, y, w, h. reflexivity.
  - intros source E. unfold looks. rewrite E. reflexivity.
Defined.
Lemma process_draws : forall depth e r (s' : PS F eng), process env depth e = Ok r s' -> forall p, new_pen p ->
  draws_all env (e_body env) (seen p (ps_trace s')) /\
  forall c q sub, call_with p (ps_trace s') c q sub -> draws_all env (match c with Header => e_header env | Footer => e_footer env end) (seen q sub).
Proof.
  intros depth e r s' H p Hp. destruct (process_paints env Hplace Hpage Hshuffle marks_watcher depth e r s' H p Hp) as [A B]. split; [exact A|].
  intros c q sub K. apply with_at in K. exact (B c q sub K).
Qed.
End Doc.
