(** Proofs about processing documents (C55, C57-C62, C65). *)
From Coq Require Import Lia Permutation.
From Verif Require Import GoStr Num Style Class Instr Engine Layout LayoutFacts Grid Table Lines Proc EngineFacts DrawSpec DrawFacts ProcInv ProcFrame ProcView ProcSpec.

Section Thms.
Context {F : Num} (env : Env F) {eng : Engine F}.
Local Notation PS := (PS F eng).
Hypothesis Hshuffle : forall l, Permutation (e_shuffle env l) l.

(** ** C55 *)
Lemma ambient_frame : forall s s' : PS, ambient s -> frame0 s s' -> ambient s'.
Proof. intros s s' [f E] [[g E'] _]. exists g. rewrite E', E. reflexivity. Qed.
Section Ambient.
Variable callback : cb -> M eng unit.
Hypothesis Hcall : forall c s, ambient s -> ends_ambient (callback c s).
Let R (s s' : PS) : Prop := ambient s -> ambient s'.
Lemma run_calls_ambient : forall p acc s, ambient s -> ends_ambient (run_calls callback p acc s).
Proof.
  induction p as [e|c e k IH]; intros acc s Hs; cbn [run_calls]; [exact Hs|].
  assert (G := Hcall c (set_eng e (set_trace [] s)) Hs). destruct (callback c _) as [[] s'| |]; try exact G.
  apply IH. exact G.
Qed.
Lemma command_ambient : forall c p s, ambient s -> ends_ambient (command callback c p s).
Proof.
  intros c p s Hs. unfold command. assert (G := run_calls_ambient (p (ps_eng s)) [] s Hs).
  destruct (run_calls callback _ _ s) as [calls s'| |]; exact G.
Qed.
Lemma command_R : forall c p s, ambient s -> okres R True s (command callback c p s).
Proof. intros c p s Hs. assert (G := command_ambient c p s Hs). destruct (command callback c p s); try exact G. intros _. exact G. Qed.
Lemma instructions_ambient : forall iss s, ambient s -> ends_ambient (processInstructions env callback iss s).
Proof.
  intros iss s Hs.
  assert (G : okres R True s (processInstructions env callback iss s)).
  { apply (mok_instructions env callback R ambient True); unfold R; auto.
    - intros f s0 H _. destruct H as [g E]. exists f. cbn [set_sty ps_sty]. rewrite E. reflexivity.
    - intros t s0 H. apply command_R. exact H.
    - intros s0 H _. apply command_R. exact H.
    - intros _ s0 H. apply command_R. exact H. }
  destruct (processInstructions env callback iss s); try exact G. exact (G Hs).
Qed.
Lemma callback_ambient : forall c s, ambient s -> ends_ambient (run_callback env callback c s).
Proof.
  intros c s Hs. unfold run_callback. unfold bind at 1, lift at 1, query at 1. unfold bind at 1, lift at 1, modify at 1.
  set (iss := match c with Header => e_header env | Footer => e_footer env end).
  assert (G := instructions_ambient iss (set_prevent true s) Hs). unfold bind at 1.
  destruct (processInstructions env callback iss (set_prevent true s)) as [[] s1| |]; exact G.
Qed.
Lemma body_ambient : forall e, ends_ambient (process_body env callback (initial e)).
Proof.
  intros e. unfold process_body. do 3 (unfold bind at 1, lift at 1; rewrite emit_eq).
  unfold bind at 1, lift at 1, get at 1. unfold bind at 1, lift at 1.
  destruct (changeFont _ _) as [[] s1] eqn:E1.
  assert (H1 : ambient s1).
  { unfold changeFont in E1. rewrite sbind_pair in E1. cbn [modify fst snd] in E1. rewrite sbind_pair in E1. cbn [get fst snd] in E1. rewrite emit_eq in E1.
    injection E1 as <-. eexists. rewrite emitted_sty. cbn [set_sty ps_sty]. rewrite !emitted_sty. reflexivity. }
  unfold bind at 1. assert (G2 := command_ambient AddPage addPage s1 H1). fold (add_page callback) in G2.
  destruct (add_page callback s1) as [[] s2| |]; try exact G2. unfold bind at 1.
  assert (G3 := instructions_ambient (e_body env) s2 G2). destruct (processInstructions env callback (e_body env) s2) as [[] s3| |]; try exact G3.
  unfold bind at 1, lift at 1, query at 1. destruct (engError (ps_eng s3)); [exact G3|].
  unfold bind at 1. assert (G4 := command_ambient WritePDF writePDF s3 G3). fold (write_pdf callback) in G4.
  destruct (write_pdf callback s3) as [[] s4| |]; exact G4.
Qed.
End Ambient.
Lemma callbacks_ambient : forall depth c s, ambient s -> ends_ambient (callbacks env (eng:=eng) depth c s).
Proof. induction depth as [|d IH]; intros c s Hs; [exact I|]. cbn [callbacks]. apply callback_ambient; assumption. Qed.
Lemma process_ambient : forall depth e, ends_ambient (process env (eng:=eng) depth e).
Proof. intros depth e. apply body_ambient. apply callbacks_ambient. Qed.
Lemma never_panics : forall depth (e : est eng), process env depth e <> Panic.
Proof. intros depth e H. assert (G := process_ambient depth e). rewrite H in G. exact G. Qed.

(** ** C57 *)
Lemma callback_cursor : forall callback c (s s' : PS), run_callback env callback c s = Ok tt s' ->
  settable (eng:=eng) (fst (getXY (ps_eng s))) (snd (getXY (ps_eng s))) ->
  getXY (ps_eng s') = getXY (ps_eng s) /\ ps_prevent s' = false.
Proof.
  intros callback c s s' H Hset. unfold run_callback in H.
  apply bind_ok in H as (xy & s1 & H1 & H). apply lift_ok in H1. injection H1 as <- <-.
  apply bind_ok in H as ([] & s2 & _ & H). apply bind_ok in H as ([] & s3 & _ & H).
  apply bind_ok in H as ([] & s4 & H4 & H). apply lift_ok in H4. apply bind_ok in H as ([] & s5 & H5 & H). apply lift_ok in H5. apply lift_ok in H.
  injection H as <-. injection H5 as <-. injection H4 as <-. split; [|reflexivity]. cbn [ps_eng set_prevent]. rewrite Hset. symmetry. apply surjective_pairing.
Qed.

(** ** C58 *)
Lemma unint_app : forall a b : list (event F), uninterrupted (a ++ b) -> uninterrupted a /\ uninterrupted b.
Proof. intros a b H. split; intros e He; apply H; apply in_or_app; auto. Qed.
Lemma pages_app : forall a b : list (event F), pages (a ++ b) = (pages a + pages b)%nat.
Proof. intros. unfold pages. rewrite filter_app, app_length. reflexivity. Qed.
Section Breaks.
Variable callback : cb -> M eng unit.
Hypothesis Hpanic : forall c s, callback c s <> Panic.
Let R (s s' : PS) : Prop := exists evs, ps_trace s' = ps_trace s ++ evs /\
  (uninterrupted evs -> ps_prevent s = true -> ps_prevent s' = true /\ pages evs = 0%nat).
Lemma R_refl : forall s, R s s.
Proof. intros s. exists []. rewrite app_nil_r. split; [reflexivity|]. intros _ P. split; [exact P|reflexivity]. Qed.
Lemma R_trans : forall a b c, R a b -> R b c -> R a c.
Proof.
  intros a b c (e1 & T1 & K1) (e2 & T2 & K2). exists (e1 ++ e2). rewrite T2, T1, app_assoc. split; [reflexivity|].
  intros U P. destruct (unint_app _ _ U) as [U1 U2]. destruct (K1 U1 P) as [P1 N1]. destruct (K2 U2 P1) as [P2 N2].
  split; [exact P2|]. rewrite pages_app, N1, N2. reflexivity.
Qed.
Lemma run_calls_no_panic : forall p acc s, run_calls callback p acc s <> Panic.
Proof.
  induction p as [e|c e k IH]; intros acc s; cbn [run_calls]; [discriminate|].
  assert (G := Hpanic c (set_eng e (set_trace [] s))). destruct (callback c _) as [[] s'| |]; [apply IH|contradiction|discriminate].
Qed.
Lemma run_calls_acc : forall p acc s calls s', run_calls callback p acc s = Ok calls s' -> exists l, calls = acc ++ l /\ (l = [] -> exists e, s' = set_eng e s).
Proof.
  induction p as [e|c e k IH]; intros acc s calls s' H; cbn [run_calls] in H.
  { injection H as <- <-. exists []. split; [symmetry; apply app_nil_r|]. intros _. exists e. reflexivity. }
  destruct (callback c _) as [[] s1| |]; try discriminate H. destruct (IH _ _ _ _ _ H) as (l & E & _). exists ((c, ps_trace s1) :: l).
  split; [rewrite E, <- app_assoc; reflexivity|]. discriminate.
Qed.
Lemma command_R2 : forall c p s, match command callback c p s with
  | Ok _ s' => exists calls, ps_trace s' = ps_trace s ++ [Ev c calls] /\ (calls = [] -> ps_prevent s' = ps_prevent s)
  | Panic => False | Diverge => True end.
Proof.
  intros c p s. unfold command. assert (G := run_calls_no_panic (p (ps_eng s)) [] s). assert (K := run_calls_acc (p (ps_eng s)) [] s).
  destruct (run_calls callback _ _ s) as [calls s'| |]; [|congruence|exact I]. destruct (K _ _ eq_refl) as (l & E & Hl). exists calls. split; [reflexivity|].
  intros Hc. cbn in E. rewrite E in Hc. destruct (Hl Hc) as [e ->]. reflexivity.
Qed.
Lemma R_text : forall t s, okres R True s (write_text callback t s).
Proof.
  intros t s. unfold write_text. assert (G := command_R2 (WriteText t) (Engine.writeText t) s). destruct (command callback _ _ s) as [[] s'| |]; try exact G.
  destruct G as (calls & T & K). exists [Ev (WriteText t) calls]. split; [exact T|]. intros U P. split; [|reflexivity]. rewrite K; [exact P|]. exact (U _ (or_introl eq_refl)).
Qed.
Lemma instruction_R : forall i s, i <> IPageBreak -> okres R True s (processInstruction env callback i s).
Proof.
  intros i s Hi. apply (mok_instruction env callback R (fun _ => True) True); auto.
  - apply R_refl.
  - apply R_trans.
  - intros c s0 _. exists [Ev (Simple c) []]. rewrite emitted_trace, emitted_prevent. split; [reflexivity|]. intros _ P. split; [exact P|reflexivity].
  - intros f s0 _. exists []. split; [symmetry; apply app_nil_r|]. intros _ P. split; [exact P|reflexivity].
  - intros t s0 _. apply R_text.
  - intros s0 _ P0. unfold add_page. assert (G := command_R2 AddPage addPage s0). destruct (command callback _ _ s0) as [[] s'| |]; try exact G.
    destruct G as (calls & T & _). exists [Ev AddPage calls]. split; [exact T|]. intros _ P. congruence.
  - intros E. contradiction.
Qed.
Lemma breaks_count : forall iss s s', processInstructions env callback iss s = Ok tt s' -> ps_prevent s = true ->
  exists evs, ps_trace s' = ps_trace s ++ evs /\ (uninterrupted evs -> ps_prevent s' = true /\ pages evs = newpages iss).
Proof.
  induction iss as [|i iss IH]; intros s s' H P; cbn [processInstructions] in H.
  { injection H as <-. exists []. rewrite app_nil_r. split; [reflexivity|]. intros _. split; [exact P|reflexivity]. }
  apply bind_ok in H as ([] & s1 & H1 & H).
  assert (G : exists e1, ps_trace s1 = ps_trace s ++ e1 /\ (uninterrupted e1 -> ps_prevent s1 = true /\ pages e1 = newpages [i])).
  { assert (D : i = IPageBreak \/ i <> IPageBreak) by (destruct i; (left; reflexivity) || (right; discriminate)). destruct D as [->|D].
    - cbn [processInstruction] in H1. unfold add_page in H1. assert (G := command_R2 AddPage addPage s). rewrite H1 in G. destruct G as (calls & T & K).
      exists [Ev AddPage calls]. split; [exact T|]. intros U. split; [|reflexivity]. rewrite K; [exact P|]. exact (U _ (or_introl eq_refl)).
    - assert (G := instruction_R i s D). rewrite H1 in G. destruct G as (e1 & T & K). exists e1. split; [exact T|]. intros U. destruct (K U P) as [K1 K2]. split; [exact K1|].
      rewrite K2. destruct i; try reflexivity. contradiction. }
  destruct G as (e1 & T1 & K1).
  assert (Rest : exists e2, ps_trace s' = ps_trace s1 ++ e2 /\ (ps_prevent s1 = true -> uninterrupted e2 -> ps_prevent s' = true /\ pages e2 = newpages iss)).
  { destruct (ps_prevent s1) eqn:P1.
    - destruct (IH s1 s' H P1) as (e2 & T2 & K2). exists e2. split; [exact T2|]. intros _. exact K2.
    - assert (G : okres (fun a b => exists e, ps_trace b = ps_trace a ++ e) True s1 (processInstructions env callback iss s1)).
      { apply (mok_instructions env callback (fun a b => exists e, ps_trace b = ps_trace a ++ e) (fun _ => True) True); auto.
        - intros s0. exists []. symmetry. apply app_nil_r.
        - intros a b c [x X] [y Y]. exists (x ++ y). rewrite Y, X, app_assoc. reflexivity.
        - intros c s0 _. eexists. apply emitted_trace.
        - intros f s0 _. exists []. symmetry. apply app_nil_r.
        - intros t s0 _. assert (G := R_text t s0). destruct (write_text callback t s0); try exact G. destruct G as (e & T & _). exists e. exact T.
        - intros s0 _ _. unfold add_page. assert (G := command_R2 AddPage addPage s0). destruct (command callback _ _ s0); try exact G. destruct G as (e & T & _). eexists; exact T.
        - intros _ s0 _. unfold add_page. assert (G := command_R2 AddPage addPage s0). destruct (command callback _ _ s0); try exact G. destruct G as (e & T & _). eexists; exact T. }
      rewrite H in G. destruct G as [e2 T2]. exists e2. split; [exact T2|]. discriminate. }
  destruct Rest as (e2 & T2 & K2). exists (e1 ++ e2). split; [rewrite T2, T1, app_assoc; reflexivity|]. intros U. destruct (unint_app _ _ U) as [U1 U2].
  destruct (K1 U1) as [P1 N1]. destruct (K2 P1 U2) as [P2 N2]. split; [exact P2|]. rewrite pages_app, N1, N2. unfold newpages. change (i :: iss) with ([i] ++ iss). rewrite filter_app, app_length. reflexivity.
Qed.
Lemma callback_breaks : forall c (s s' : PS), run_callback env callback c s = Ok tt s' ->
  exists evs, ps_trace s' = ps_trace s ++ evs /\
    (uninterrupted evs -> pages evs = newpages (match c with Header => e_header env | Footer => e_footer env end)).
Proof.
  intros c s s' H. unfold run_callback in H.
  apply bind_ok in H as (xy & s1 & H1 & H). apply lift_ok in H1. injection H1 as <- <-.
  apply bind_ok in H as ([] & s2 & H2 & H). apply lift_ok in H2. injection H2 as <-. apply bind_ok in H as ([] & s3 & H3 & H).
  apply bind_ok in H as ([] & s4 & H4 & H). apply lift_ok in H4. rewrite emit_eq in H4. apply bind_ok in H as ([] & s5 & H5 & H). apply lift_ok in H5. rewrite emit_eq in H5. apply lift_ok in H.
  injection H as <-. injection H5 as <-. injection H4 as <-. destruct (breaks_count _ _ _ H3 eq_refl) as (evs & T & K).
  eexists. cbn [ps_trace set_prevent]. rewrite !emitted_trace, T, <- !app_assoc. split; [reflexivity|]. intros U. apply unint_app in U as [U _]. rewrite !pages_app. rewrite (proj2 (K U)).
  unfold pages. cbn. lia.
Qed.
End Breaks.
Lemma callbacks_no_panic : forall depth c (s : PS), callbacks env depth c s <> Panic.
Proof. intros depth c s H. assert (G := callbacks_frame env Hshuffle depth c s). rewrite H in G. exact G. Qed.
Lemma callbacks_breaks : forall depth c (s s' : PS), callbacks env depth c s = Ok tt s' ->
  exists evs, ps_trace s' = ps_trace s ++ evs /\
    (uninterrupted evs -> pages evs = newpages (match c with Header => e_header env | Footer => e_footer env end)).
Proof. intros [|d] c s s' H; [discriminate H|]. cbn [callbacks] in H. exact (callback_breaks (callbacks env d) (callbacks_no_panic d) c s s' H). Qed.

(** ** C59 *)
Section Quiet.
Variable quiet : est eng -> Prop.
Hypothesis Hq : quiet_engine eng quiet.
Section Inside.
Variable callback : cb -> M eng unit.
Let R (s s' : PS) : Prop := (quiet (ps_eng s) -> quiet (ps_eng s')) /\ ps_prevent s' = ps_prevent s.
Lemma instructions_quiet : forall iss s, ~ In IPageBreak iss -> quiet (ps_eng s) /\ ps_prevent s = true ->
  okres R False s (processInstructions env callback iss s).
Proof.
  intros iss s Hn Hs. apply (mok_instructions env callback R (fun s => quiet (ps_eng s) /\ ps_prevent s = true) False); auto.
  - intros s0. split; auto.
  - intros a b c [A1 A2] [B1 B2]. split; [auto|congruence].
  - intros a b [A1 A2] [B1 B2]. split; [auto|congruence].
  - intros c s0 [H _]. split; [|apply emitted_prevent]. rewrite emitted_eng. apply (Q_simple _ _ Hq).
  - intros f s0 _. split; auto.
  - intros t s0 [H _]. unfold write_text, command. destruct (Q_write _ _ Hq t _ H) as (e' & -> & He'). cbn. split; auto.
  - intros s0 [_ H] P. congruence.
  - intros H. contradiction.
Qed.
Lemma callback_quiet : forall c s, ~ In IPageBreak (match c with Header => e_header env | Footer => e_footer env end) -> quiet (ps_eng s) ->
  exists s', run_callback env callback c s = Ok tt s'.
Proof.
  intros c s Hn Hs. unfold run_callback. unfold bind at 1, lift at 1, query at 1. unfold bind at 1, lift at 1, modify at 1.
  set (iss := match c with Header => e_header env | Footer => e_footer env end) in *.
  assert (G := instructions_quiet iss (set_prevent true s) Hn (conj Hs eq_refl)). unfold bind at 1.
  destruct (processInstructions env callback iss (set_prevent true s)) as [[] s1| |]; try contradiction. eexists. reflexivity.
Qed.
End Inside.
Hypothesis Hheader : ~ In IPageBreak (e_header env).
Hypothesis Hfooter : ~ In IPageBreak (e_footer env).
Lemma run_calls_quiet : forall depth p acc (s : PS), calls_in (fun _ => quiet) p -> exists l s', run_calls (callbacks env (S depth)) p acc s = Ok l s'.
Proof.
  intros depth. induction p as [e|c e k IH]; intros acc s H; cbn [run_calls]; [eexists _, _; reflexivity|].
  inversion H as [|c' e' k' H1 H2]; subst. cbn [callbacks].
  destruct (callback_quiet (callbacks env depth) c (set_eng e (set_trace [] s))) as [s1 E]; [destruct c; assumption|exact H1|]. rewrite E. apply IH. apply H2.
Qed.
Lemma command_quiet : forall depth c p (s : PS), calls_in (fun _ => quiet) (p (ps_eng s)) -> exists s', command (callbacks env (S depth)) c p s = Ok tt s'.
Proof. intros depth c p s H. unfold command. destruct (run_calls_quiet depth (p (ps_eng s)) [] s H) as (l & s' & ->). eexists. reflexivity. Qed.
Lemma terminates : forall depth (e : est eng), exists r s', process env (S depth) e = Ok r s'.
Proof.
  intros depth e. unfold process, process_body. do 3 (unfold bind at 1, lift at 1; rewrite emit_eq).
  unfold bind at 1, lift at 1, get at 1. unfold bind at 1, lift at 1. destruct (changeFont _ _) as [[] s1].
  unfold bind at 1. destruct (command_quiet depth AddPage addPage s1 (Q_page _ _ Hq _)) as [s2 E2]. unfold add_page. rewrite E2. unfold bind at 1.
  assert (G : okres (fun _ _ => True) False s2 (processInstructions env (callbacks env (S depth)) (e_body env) s2)).
  { assert (P : forall s0 : PS, okres (fun _ _ => True) False s0 (add_page (callbacks env (S depth)) s0)).
    { intros s0. unfold add_page. destruct (command_quiet depth AddPage addPage s0 (Q_page _ _ Hq _)) as [s' ->]. exact I. }
    apply (mok_instructions env (callbacks env (S depth)) (fun _ _ => True) (fun _ => True) False); auto.
    - intros t s0 _. unfold write_text. destruct (command_quiet depth (WriteText t) (Engine.writeText t) s0 (Q_text _ _ Hq t _)) as [s' ->]. exact I.
    - intros _ s0 _. apply P. }
  destruct (processInstructions env (callbacks env (S depth)) (e_body env) s2) as [[] s3| |]; try contradiction.
  unfold bind at 1, lift at 1, query at 1. destruct (engError (ps_eng s3)); [eexists _, _; reflexivity|].
  unfold bind at 1, write_pdf. destruct (command_quiet depth WritePDF writePDF s3 (Q_pdf _ _ Hq _)) as [s4 ->]. eexists _, _. reflexivity.
Qed.
End Quiet.

(** ** C60 *)
Section Loop.
Hypothesis Hpages : forall e : est eng, calls_header (addPage e).
Hypothesis Hin : In IPageBreak (e_header env).
Lemma run_calls_loop : forall callback, (forall s, callback Header s = Diverge) -> (forall c (s : PS), callback c s <> Panic) ->
  forall p acc (s : PS), calls_header p -> run_calls callback p acc s = Diverge.
Proof.
  intros callback Hd Hp. induction p as [e|c e k IH]; intros acc s H; [inversion H|]. cbn [run_calls]. inversion H; subst.
  - rewrite Hd. reflexivity.
  - assert (G := Hp c (set_eng e (set_trace [] s))). destruct (callback c _) as [[] s'| |]; [apply IH; auto|congruence|reflexivity].
Qed.
Lemma instructions_app : forall callback l l' (s : PS), processInstructions env callback (l ++ l') s = bind (processInstructions env callback l) (fun _ => processInstructions env callback l') s.
Proof.
  intros callback. induction l as [|i l IH]; intros l' s; [reflexivity|]. cbn [app processInstructions]. unfold bind at 1 2. unfold bind at 1.
  destruct (processInstruction env callback i s) as [[] s1| |]; [|reflexivity|reflexivity]. apply IH.
Qed.
Lemma header_loops : forall depth (s : PS), callbacks env depth Header s = Diverge.
Proof.
  induction depth as [|d IH]; intros s; [reflexivity|]. cbn [callbacks]. unfold run_callback.
  unfold bind at 1, lift at 1, query at 1. unfold bind at 1, lift at 1, modify at 1.
  apply in_split in Hin as (l1 & l2 & E). rewrite E. unfold bind at 1. rewrite instructions_app. unfold bind at 1.
  assert (G := instructions_frame env Hshuffle (callbacks env d) (callbacks_frame0 env Hshuffle d) l1 (set_prevent true s)).
  destruct (processInstructions env (callbacks env d) l1 (set_prevent true s)) as [[] s1| |]; [|contradiction|reflexivity].
  cbn [processInstructions processInstruction]. unfold bind at 1, add_page, command.
  rewrite (run_calls_loop (callbacks env d) IH (callbacks_no_panic d)); [reflexivity|apply Hpages].
Qed.
Lemma loops : forall depth (e : est eng), process env depth e = Diverge.
Proof.
  intros depth e. unfold process, process_body. do 3 (unfold bind at 1, lift at 1; rewrite emit_eq).
  unfold bind at 1, lift at 1, get at 1. unfold bind at 1, lift at 1. destruct (changeFont _ _) as [[] s1].
  unfold bind at 1, add_page, command. rewrite (run_calls_loop (callbacks env depth) (header_loops depth) (callbacks_no_panic depth)); [reflexivity|apply Hpages].
Qed.
End Loop.
End Thms.
