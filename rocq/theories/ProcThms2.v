(** Proofs about processing documents (C56, C61-C65). *)
From Coq Require Import Lia Permutation QArith.
From Verif Require Import GoStr Num Style Class Instr Engine Layout LayoutSpec LayoutFacts Grid Table Lines LinesSpec LinesLink WriteSpec WriteFacts Proc EngineFacts DrawSpec DrawFacts ProcInv ProcFrame ProcView ProcSpec ProcThms.
Local Open Scope nat_scope.

Section Thms.
Context {F : Num} (env : Env F) {eng : Engine F}.
Local Notation PS := (PS F eng).
Hypothesis Hshuffle : forall l, Permutation (e_shuffle env l) l.

(** ** C61, C62 *)
Lemma nothing_app : forall a b : list (event F), writes_nothing (a ++ b) <-> writes_nothing a /\ writes_nothing b.
Proof. intros a b. unfold writes_nothing, flat. rewrite flat_map_app. split; [intros H; split; intro K; apply H; apply in_or_app; auto|]. intros [H1 H2] K. apply in_app_or in K as [K|K]; auto. Qed.
Definition adds (s s' : PS) : Prop := exists evs, ps_trace s' = ps_trace s ++ evs /\ writes_nothing evs.
Lemma adds_refl : forall s, adds s s.
Proof. intros s. exists []. rewrite app_nil_r. split; [reflexivity|intros []]. Qed.
Lemma adds_trans : forall a b c, adds a b -> adds b c -> adds a c.
Proof. intros a b c (x & X & NX) (y & Y & NY). exists (x ++ y). rewrite Y, X, app_assoc. split; [reflexivity|]. apply nothing_app. auto. Qed.
Lemma adds_emit : forall c s, adds s (emitted c s).
Proof. intros c s. eexists. rewrite emitted_trace. split; [reflexivity|]. intros [K|[]]. discriminate K. Qed.
Section Callback.
Variable callback : cb -> M eng unit.
Hypothesis Hcall : forall c s, okres adds True s (callback c s).
Definition quiet_calls (calls : list (cb * list (event F))) : Prop := forall p, In p calls -> writes_nothing (snd p).
Lemma run_calls_adds : forall p acc s, quiet_calls acc -> match run_calls callback p acc s with Ok calls _ => quiet_calls calls | Panic => False | Diverge => True end.
Proof.
  induction p as [e|c e k IH]; intros acc s Ha; cbn [run_calls]; [exact Ha|].
  assert (G := Hcall c (set_eng e (set_trace [] s))). destruct (callback c _) as [[] s'| |]; try exact G. apply IH.
  intros q Hq. apply in_app_or in Hq as [Hq|[<-|[]]]; [exact (Ha q Hq)|]. destruct G as (evs & T & N). cbn in T. cbn [snd]. rewrite T. exact N.
Qed.
Lemma event_nothing : forall c calls, c <> WritePDF -> quiet_calls calls -> writes_nothing [Ev c calls].
Proof.
  intros c calls Hc Hq. unfold writes_nothing, flat. cbn [flat_map flat_event]. rewrite app_nil_r. intros [K|K]; [congruence|].
  apply in_flat_map in K as (p & Hp & K). exact (Hq p Hp K).
Qed.
Lemma command_adds : forall c p s, match command callback c p s with
  | Ok _ s' => exists calls, ps_trace s' = ps_trace s ++ [Ev c calls] /\ quiet_calls calls | Panic => False | Diverge => True end.
Proof.
  intros c p s. unfold command. assert (G := run_calls_adds (p (ps_eng s)) [] s (fun _ H => match H with end)).
  destruct (run_calls callback _ _ s) as [calls s'| |]; try exact G. exists calls. split; [reflexivity|exact G].
Qed.
Lemma command_ok_adds : forall c p s, c <> WritePDF -> okres adds True s (command callback c p s).
Proof.
  intros c p s Hc. assert (G := command_adds c p s). destruct (command callback c p s) as [[] s'| |]; try exact G. destruct G as (calls & T & Q).
  exists [Ev c calls]. split; [exact T|]. apply event_nothing; assumption.
Qed.
Lemma instruction_adds : forall i s, okres adds True s (processInstruction env callback i s).
Proof.
  intros i s. apply (mok_instruction env callback adds (fun _ => True) True); auto.
  - apply adds_refl.
  - apply adds_trans.
  - intros. apply adds_emit.
  - intros f s0 _. exists []. split; [symmetry; apply app_nil_r|intros []].
  - intros t s0 _. apply command_ok_adds. discriminate.
  - intros s0 _ _. apply command_ok_adds. discriminate.
  - intros _ s0 _. apply command_ok_adds. discriminate.
Qed.
Lemma instructions_adds : forall iss s, okres adds True s (processInstructions env callback iss s).
Proof.
  induction iss as [|i iss IH]; intros s; cbn [processInstructions]; [apply adds_refl|]. unfold bind.
  assert (G := instruction_adds i s). destruct (processInstruction env callback i s) as [[] s1| |]; try exact G.
  assert (K := IH s1). destruct (processInstructions env callback iss s1) as [[] s2| |]; try exact K. exact (adds_trans _ _ _ G K).
Qed.
Lemma callback_adds : forall c s, okres adds True s (run_callback env callback c s).
Proof.
  intros c s. unfold run_callback. unfold bind at 1, lift at 1, query at 1. unfold bind at 1, lift at 1, modify at 1.
  set (iss := match c with Header => e_header env | Footer => e_footer env end).
  assert (G := instructions_adds iss (set_prevent true s)). unfold bind at 1.
  destruct (processInstructions env callback iss (set_prevent true s)) as [[] s1| |]; try exact G. unfold bind at 1, lift at 1. rewrite emit_eq.
  unfold bind at 1, lift at 1. rewrite emit_eq. cbn [lift modify okres].
  refine (adds_trans _ _ _ G _). refine (adds_trans _ _ _ (adds_emit _ _) _). exact (adds_emit _ _).
Qed.
Lemma performed : forall iss s s', processInstructions env callback iss s = Ok tt s' ->
  exists pieces, performs env callback iss s pieces s' /\ ps_trace s' = ps_trace s ++ List.concat pieces /\ writes_nothing (List.concat pieces).
Proof.
  induction iss as [|i iss IH]; intros s s' H; cbn [processInstructions] in H.
  { injection H as <-. exists []. split; [constructor|]. split; [symmetry; apply app_nil_r|intros []]. }
  apply bind_ok in H as ([] & s1 & H1 & H). assert (G := instruction_adds i s). rewrite H1 in G. destruct G as (evs & T & N).
  destruct (IH _ _ H) as (pieces & P & T' & N'). exists (evs :: pieces). split; [exact (P_cons _ _ _ _ _ _ _ _ _ H1 T P)|]. cbn [List.concat].
  split; [rewrite T', T, app_assoc; reflexivity|]. apply nothing_app. auto.
Qed.
End Callback.
Lemma callbacks_adds : forall depth c s, okres adds True s (callbacks env depth c s).
Proof. induction depth as [|d IH]; intros c s; [exact I|]. cbn [callbacks]. apply callback_adds. exact IH. Qed.

(** What comes before the body, the body, what comes after it. *)
Lemma process_parts : forall depth (e : est eng) r s', process env depth e = Ok r s' ->
  exists calls s0 pieces s1,
    ps_trace s0 = [Ev (Simple (SetPageCountAlias ($"{np}"))) []; Ev (Simple OnHeader) []; Ev (Simple OnFooter) [];
                   Ev (Simple (ChangeFont (SFont DefaultStyle))) []; Ev AddPage calls] /\
    writes_nothing (ps_trace s0) /\
    performs env (callbacks env depth) (e_body env) s0 pieces s1 /\
    ps_trace s1 = ps_trace s0 ++ List.concat pieces /\ writes_nothing (List.concat pieces) /\
    match engError (ps_eng s1) with
    | Some err => r = Some err /\ s' = s1
    | None => r = writeResult (ps_eng s') /\
              exists last, ps_trace s' = ps_trace s1 ++ [Ev WritePDF last] /\ forall p, In p last -> writes_nothing (snd p)
    end.
Proof.
  intros depth e r s' H. unfold process, process_body in H.
  do 3 (apply bind_ok in H as ([] & ? & H1 & H); apply lift_ok in H1; rewrite emit_eq in H1; injection H1 as <-).
  apply bind_ok in H as (y & s1 & H1 & H). apply lift_ok in H1. injection H1 as <- <-. rewrite !emitted_sty in H. cbn [initial ps_sty] in H.
  apply bind_ok in H as ([] & s1 & H1 & H). apply lift_ok in H1. rewrite changeFont_eq in H1. injection H1 as <-.
  apply bind_ok in H as ([] & s2 & H2 & H). unfold add_page in H2.
  assert (G2 := command_adds (callbacks env depth) (callbacks_adds depth) AddPage addPage). match type of H2 with _ ?s = _ => specialize (G2 s) end. rewrite H2 in G2. destruct G2 as (calls & T2 & Q2).
  apply bind_ok in H as ([] & s3 & H3 & H). destruct (performed (callbacks env depth) (callbacks_adds depth) _ _ _ H3) as (pieces & P & T3 & N3).
  unfold font_changed in T2. rewrite emitted_trace in T2. cbn [ps_trace set_sty] in T2. rewrite !emitted_trace in T2. cbn [ps_trace initial app] in T2.
  exists calls, s2, pieces, s3. split; [exact T2|]. split.
  { rewrite T2. change (writes_nothing ([Ev (Simple (SetPageCountAlias ($"{np}"))) []; Ev (Simple OnHeader) []; Ev (Simple OnFooter) []; Ev (Simple (ChangeFont (SFont DefaultStyle))) []] ++ [Ev AddPage calls])).
    apply nothing_app. split; [|apply event_nothing; [discriminate|exact Q2]]. intros [K|[K|[K|[K|[]]]]]; discriminate K. }
  split; [exact P|]. split; [exact T3|]. split; [exact N3|].
  apply bind_ok in H as (err & s4 & H4 & H). apply lift_ok in H4. injection H4 as <- <-.
  destruct (engError (ps_eng s3)) as [er|]; [injection H as <- <-; split; reflexivity|].
  apply bind_ok in H as ([] & s5 & H5 & H). apply lift_ok in H. injection H as <- <-. split; [reflexivity|].
  assert (G5 := command_adds (callbacks env depth) (callbacks_adds depth) WritePDF writePDF s3). unfold write_pdf in H5. rewrite H5 in G5. destruct G5 as (l & T5 & Q5).
  exists l. split; [exact T5|exact Q5].
Qed.
Lemma process_order : forall depth (e : est eng) r s', process env depth e = Ok r s' ->
  exists before (s0 : PS) pieces s1 after, ps_trace s0 = before /\
    performs env (callbacks env depth) (e_body env) s0 pieces s1 /\
    ps_trace s' = before ++ List.concat pieces ++ after /\ List.length before = 5 /\ List.length after <= 1.
Proof.
  intros depth e r s' H. destruct (process_parts depth e r s' H) as (calls & s0 & pieces & s1 & T0 & _ & P & T1 & _ & K).
  destruct (engError (ps_eng s1)) as [er|].
  - destruct K as [_ ->]. exists (ps_trace s0), s0, pieces, s1, []. split; [reflexivity|]. split; [exact P|]. rewrite app_nil_r. split; [exact T1|]. rewrite T0. cbn. lia.
  - destruct K as (_ & l & T & _). exists (ps_trace s0), s0, pieces, s1, [Ev WritePDF l]. split; [reflexivity|]. split; [exact P|]. rewrite T, T1, <- app_assoc. split; [reflexivity|]. rewrite T0. cbn. lia.
Qed.
Lemma inner_silent : forall callback i (s : PS), inner_only i = true -> processInstruction env callback i s = Ok tt s.
Proof. intros callback i s H. destruct i; try discriminate H; reflexivity. Qed.

(** ** C65 *)
Lemma reset_restored : forall s : PS, restored (snd (resetStyles s)).
Proof.
  intros s. unfold resetStyles, set_text_color. rewrite sbind_pair. cbn [get fst snd]. rewrite sbind_emit. rewrite sbind_pair. cbn [get fst snd]. rewrite emit_eq. cbn [snd].
  exists (map ev_cmd (ps_trace s)). rewrite !emitted_sty, !emitted_trace, <- app_assoc, map_app. reflexivity.
Qed.
Lemma lift_reset : forall (s s' : PS), lift resetStyles s = Ok tt s' -> s' = snd (resetStyles s).
Proof. intros s s' H. apply lift_ok in H. rewrite H. reflexivity. Qed.
Lemma text_restored : forall callback st iss (s s' : PS), iss <> [] -> renderText env callback st iss s = Ok tt s' -> restored s'.
Proof.
  intros callback st iss s s' Hn H. unfold renderText in H. destruct iss as [|i iss]; [contradiction|].
  apply bind_ok in H as (? & ? & _ & H). apply bind_ok in H as (? & ? & _ & H). apply bind_ok in H as (? & ? & _ & H). rewrite (lift_reset _ _ H). apply reset_restored.
Qed.
Lemma box_restored : forall callback st iss pa (s s' : PS), renderTextBox env callback st iss pa s = Ok tt s' -> restored s'.
Proof.
  intros callback st iss pa s s' H. unfold renderTextBox in H. cbv zeta in H.
  do 6 (apply bind_ok in H as (? & ? & _ & H)). apply bind_ok in H as ([px py] & ? & _ & H). do 5 (apply bind_ok in H as (? & ? & _ & H)).
  rewrite (lift_reset _ _ H). apply reset_restored.
Qed.
Lemma table_restored : forall callback xt (s s' : PS), renderTable env callback xt s = Ok tt s' -> restored s'.
Proof.
  intros callback [st rh xrows] s s' H. destruct (renderTable_schedule env callback st rh xrows s s' H) as (h & t & s1 & _ & [[_ ->]|(_ & before & blocks & s2 & y' & K)]); [apply reset_restored|].
  destruct (printableArea (ps_eng s1)) as [[[? ?] ?] ?]. destruct K as [_ ->]. apply reset_restored.
Qed.
Lemma element_restored : forall callback i (s s' : PS), processInstruction env callback i s = Ok tt s' ->
  match i with IText _ [] => s' = s | IText _ _ | IBox _ _ | ITable _ => restored s' | _ => True end.
Proof.
  intros callback i s s' H. destruct i; try exact I; cbn [processInstruction] in H.
  - apply bind_ok in H as (pg & s1 & _ & H). exact (box_restored _ _ _ _ _ _ H).
  - destruct iss as [|i iss]; [injection H as <-; reflexivity|]. refine (text_restored _ _ _ _ _ _ H). discriminate.
  - exact (table_restored _ _ _ _ H).
Qed.

(** ** C56 *)
Definition fnt (it : textItem F) : Font F := SFont (i_sty it).
Definition all_items (lines : list (textLine F)) (curr : textLine F) : list (textItem F) := flat_map l_items lines ++ l_items curr.
Definition inked (y : Styles F) (items : list (textItem F)) (s : PS) : Prop := ps_sty s = with_font (last_font (map fnt items) (SFont y)) y.
Lemma inked_snoc : forall y items it s, inked y (items ++ [it]) s <-> ps_sty s = with_font (fnt it) y.
Proof. intros. unfold inked, last_font. rewrite map_app. cbn [map]. rewrite last_last. reflexivity. Qed.
Lemma words_inked : forall width st ws lines curr (s : PS), ws <> [] ->
  exists lines' curr' items' it, place_words width st ws lines curr s = ((lines', curr'), s) /\ all_items lines' curr' = items' ++ [it] /\ fnt it = SFont st.
Proof.
  intros width st. induction ws as [|w ws IH]; intros lines curr s Hn; [contradiction|]. cbn [place_words]. rewrite sbind_query. cbv zeta.
  destruct (leb _ _); match goal with |- context [place_words width st ws ?l ?c s] => 
    destruct ws as [|w' ws']; [exists l, c|destruct (IH l c s ltac:(discriminate)) as (l1 & c1 & i1 & t1 & E & R); exists l1, c1, i1, t1; split; [exact E|exact R]] end;
  cbn [place_words]; eexists _, _; (split; [reflexivity|]); unfold all_items; cbn [l_items]; rewrite app_assoc; split; reflexivity.
Qed.
End Thms.
