(** What every computation of the Processor preserves, whatever callbacks run inside. *)
From Coq Require Import Lia Permutation.
From Verif Require Import GoStr Num Style Class Instr Engine Layout Grid Table Lines Proc EngineFacts ProcInv DrawSpec DrawFacts.

Section Frame.
Context {F : Num} (env : Env F) {eng : Engine F}.
Local Notation PS := (PS F eng).
Hypothesis Hshuffle : forall l, Permutation (e_shuffle env l) l.

(** Only the font of the ambient style changes; page breaks do not become disabled. *)
Definition frame0 (s s' : PS) : Prop :=
  (exists f, ps_sty s' = with_font f (ps_sty s)) /\ (ps_prevent s = false -> ps_prevent s' = false).
Definition body_event (e : event F) : Prop := ev_cmd e <> WritePDF.
Definition frame (s s' : PS) : Prop :=
  frame0 s s' /\ exists evs, ps_trace s' = ps_trace s ++ evs /\ Forall body_event evs.

Lemma with_font_same : forall (y : Styles F), with_font (SFont y) y = y.
Proof. intros []. reflexivity. Qed.
Lemma with_font_twice : forall f g (y : Styles F), with_font f (with_font g y) = with_font f y.
Proof. reflexivity. Qed.
Lemma frame0_refl : forall s, frame0 s s.
Proof. intros s. split; [exists (SFont (ps_sty s)); symmetry; apply with_font_same|auto]. Qed.
Lemma frame0_trans : forall a b c, frame0 a b -> frame0 b c -> frame0 a c.
Proof. intros a b c [[f E1] P1] [[g E2] P2]. split; [exists g; rewrite E2, E1; apply with_font_twice|auto]. Qed.
Lemma frame_refl : forall s, frame s s.
Proof. intros s. split; [apply frame0_refl|]. exists []. rewrite app_nil_r. split; [reflexivity|constructor]. Qed.
Lemma frame_trans : forall a b c, frame a b -> frame b c -> frame a c.
Proof.
  intros a b c [A (e1 & T1 & F1)] [B (e2 & T2 & F2)]. split; [exact (frame0_trans _ _ _ A B)|]. exists (e1 ++ e2).
  rewrite T2, T1, app_assoc. split; [reflexivity|]. apply Forall_app. auto.
Qed.
Lemma frame_emit : forall c s, frame s (emitted c s).
Proof.
  intros c s. split.
  - split; [exists (SFont (ps_sty s)); rewrite emitted_sty; symmetry; apply with_font_same|rewrite emitted_prevent; auto].
  - exists [Ev (Simple c) []]. rewrite emitted_trace. split; [reflexivity|]. constructor; [discriminate|constructor].
Qed.
Lemma frame_font : forall f s, frame s (set_sty (with_font f (ps_sty s)) s).
Proof. intros f s. split; [split; [exists f; reflexivity|auto]|]. exists []. split; [symmetry; apply app_nil_r|constructor]. Qed.

Definition okf (s : PS) {A} (r : res eng A) : Prop := okres frame True s r.
Definition I1 : PS -> Prop := fun _ => True.

Section Callback.
Variable callback : cb -> M eng unit.
Hypothesis Hcall : forall c s, match callback c s with Ok _ s' => frame0 s s' | Panic => False | Diverge => True end.
Lemma run_calls_frame : forall p acc s, match run_calls callback p acc s with Ok _ s' => frame0 s s' | Panic => False | Diverge => True end.
Proof.
  induction p as [e|c e k IH]; intros acc s; cbn [run_calls]; [split; [exists (SFont (ps_sty s)); symmetry; apply with_font_same|auto]|].
  assert (G := Hcall c (set_eng e (set_trace [] s))). destruct (callback c _) as [[] s'| |]; try exact G.
  specialize (IH (ps_eng s') (acc ++ [(c, ps_trace s')]) s'). destruct (run_calls callback _ _ s') as [a s2| |]; try exact IH.
  exact (frame0_trans _ _ _ G IH).
Qed.
Lemma command_frame : forall c p s, c <> WritePDF -> okf s (command callback c p s).
Proof.
  intros c p s Hc. unfold command. assert (G := run_calls_frame (p (ps_eng s)) [] s).
  destruct (run_calls callback _ _ s) as [calls s'| |]; try exact G. split; [exact G|].
  exists [Ev c calls]. split; [reflexivity|]. constructor; [exact Hc|constructor].
Qed.
Lemma instructions_frame : forall iss s, okf s (processInstructions env callback iss s).
Proof.
  intros iss s. apply (mok_instructions env callback frame I1 True); try exact I.
  - apply frame_refl.
  - apply frame_trans.
  - intros; exact I.
  - intros c s0 _. apply frame_emit.
  - intros f s0 _. apply frame_font.
  - intros t s0 _. apply command_frame. discriminate.
  - intros s0 _ _. apply command_frame. discriminate.
  - exact Hshuffle.
  - intros _ s0 _. apply command_frame. discriminate.
Qed.
Lemma run_frame : forall h rows x l s, okf s (run env callback h rows x l s).
Proof.
  intros h rows x l s. apply (mok_run env callback frame I1 True); try exact I.
  - apply frame_refl.
  - apply frame_trans.
  - intros; exact I.
  - intros c s0 _. apply frame_emit.
  - intros f s0 _. apply frame_font.
  - intros t s0 _. apply command_frame. discriminate.
  - intros s0 _ _. apply command_frame. discriminate.
  - intros s0 _. apply command_frame. discriminate.
Qed.
Lemma run_callback_frame : forall c s, match run_callback env callback c s with
  | Ok _ s' => frame0 s s' /\ ps_prevent s' = false | Panic => False | Diverge => True end.
Proof.
  intros c s. unfold run_callback. unfold bind at 1, lift at 1, query at 1. unfold bind at 1, lift at 1, modify at 1.
  set (iss := match c with Header => e_header env | Footer => e_footer env end).
  assert (G := instructions_frame iss (set_prevent true s)). unfold bind at 1.
  destruct (processInstructions env callback iss (set_prevent true s)) as [[] s1| |]; try exact G.
  cbn in G. destruct G as [[[f E] _] _]. cbn in E.
  cbn. split; [|reflexivity].
  split; [|reflexivity]. exists f. exact E.
Qed.
End Callback.

Lemma callbacks_frame : forall depth c s, match callbacks env depth c s with
  | Ok _ s' => frame0 s s' /\ ps_prevent s' = false | Panic => False | Diverge => True end.
Proof.
  induction depth as [|d IH]; intros c s; [exact I|]. cbn [callbacks]. apply run_callback_frame.
  intros c' s'. specialize (IH c' s'). destruct (callbacks env d c' s') as [[] s2| |]; try exact IH. exact (proj1 IH).
Qed.
Lemma callbacks_frame0 : forall depth c s, match callbacks env depth c s with
  | Ok _ s' => frame0 s s' | Panic => False | Diverge => True end.
Proof. intros d c s. assert (G := callbacks_frame d c s). destruct (callbacks env d c s); try exact G. exact (proj1 G). Qed.
End Frame.

(** C57: what holds after a header or footer callback. *)
Section Cursor.
Context {F : Num} (env : Env F) {eng : Engine F}.
Hypothesis Hshuffle : forall l, Permutation (e_shuffle env l) l.
Lemma callback_end : forall depth c (s s' : PS F eng), callbacks env depth c s = Ok tt s' ->
  exists e, ps_eng s' = simple (SetY (snd (getXY (ps_eng s)))) (simple (SetX (fst (getXY (ps_eng s)))) e) /\ ps_prevent s' = false.
Proof.
  intros depth c s s' H. destruct depth as [|d]; [discriminate H|]. cbn [callbacks] in H. unfold run_callback in H.
  apply bind_ok in H as (xy & s1 & H1 & H). apply lift_ok in H1. injection H1 as <- <-.
  apply bind_ok in H as ([] & s2 & _ & H). apply bind_ok in H as ([] & s3 & _ & H).
  apply bind_ok in H as ([] & s4 & H4 & H). apply lift_ok in H4. apply bind_ok in H as ([] & s5 & H5 & H). apply lift_ok in H5. apply lift_ok in H.
  injection H as <-. injection H5 as <-. injection H4 as <-. exists (ps_eng s3). split; reflexivity.
Qed.
End Cursor.
