(** Documents that begin alike (C110). *)
From Coq Require Import Lia Permutation.
From Verif Require Import GoStr Num Style Class Instr Engine Layout LayoutSpec LayoutFacts Grid Table Lines LinesSpec LinesLink WriteSpec WriteFacts Proc EngineFacts DrawSpec DrawFacts ProcInv ProcFrame ProcView ProcSpec ProcThms ProcThms2 OutputSpec PaintSpec PrefixSpec.

Section Prefix.
Context {F : Num} (env : Env F) {eng : Engine F}.
Hypothesis Hshuffle : forall l, Permutation (e_shuffle env l) l.
Lemma instrs_app : forall (callback : cb -> M eng unit) a b (s : PS F eng),
  processInstructions env callback (a ++ b) s = bind (processInstructions env callback a) (fun _ => processInstructions env callback b) s.
Proof.
  intros callback. induction a as [|i a IH]; intros b s; [reflexivity|]. cbn [app processInstructions]. unfold bind in *.
  destruct (processInstruction env callback i s) as [[] s1| |]; [|reflexivity|reflexivity]. apply IH.
Qed.
Definition opening (callback : cb -> M eng unit) : M eng unit :=
  lift (emit (SetPageCountAlias ($"{np}"))) ;; lift (emit OnHeader) ;; lift (emit OnFooter) ;;
  (let* y := lift (get ps_sty) in lift (changeFont (SFont y))) ;; add_page callback.
Definition closing (callback : cb -> M eng unit) : M eng (option bytes) :=
  let* err := lift (query engError) in
  match err with Some e => ret (Some e) | None => write_pdf callback ;; lift (query writeResult) end.
Lemma process_split : forall b depth (e : est eng),
  process (with_body b env) depth e = bind (opening (callbacks env depth)) (fun _ => bind (processInstructions env (callbacks env depth) b) (fun _ => closing (callbacks env depth))) (initial e).
Proof.
  intros b depth e. unfold process, process_body, opening, closing.
  change (callbacks (with_body b env) depth) with (callbacks env depth (eng:=eng)).
  change (processInstructions (with_body b env)) with (@processInstructions F env eng).
  change (e_body (with_body b env)) with b. reflexivity.
Qed.
Lemma opened : forall depth (e : est eng) s0, opening (callbacks env depth) (initial e) = Ok tt s0 -> List.length (ps_trace s0) = 5 /\ writes_nothing (ps_trace s0).
Proof.
  intros depth e s0 H. unfold opening in H. do 3 (apply bind_ok in H as ([] & ? & H1 & H); apply lift_ok in H1; rewrite emit_eq in H1; injection H1 as <-).
  apply bind_ok in H as ([] & s1 & H1 & H). apply bind_ok in H1 as (y & s2 & H2 & H1). apply lift_ok in H2. injection H2 as <- <-.
  apply lift_ok in H1. rewrite changeFont_eq in H1. injection H1 as <-. unfold add_page in H.
  assert (G2 := command_adds (callbacks (eng:=eng) env depth) (callbacks_adds env Hshuffle depth) AddPage addPage). match type of H with _ ?s = _ => specialize (G2 s) end. rewrite H in G2. destruct G2 as (calls & T2 & Q2).
  unfold font_changed in T2. rewrite emitted_trace in T2. cbn [ps_trace set_sty] in T2. rewrite !emitted_trace in T2. cbn [ps_trace initial app] in T2.
  rewrite T2. split; [reflexivity|]. match goal with |- writes_nothing [?a; ?b; ?c; ?d; ?x] => change (writes_nothing ([a; b; c; d] ++ [x])) end.
  apply nothing_app. split; [|apply event_nothing; [discriminate|exact Q2]]. intros [K|[K|[K|[K|[]]]]]; discriminate K.
Qed.
Lemma common_start : forall b m1 m2 depth (e : est eng) r1 s1 r2 s2,
  process (with_body (b ++ m1) env) depth e = Ok r1 s1 -> process (with_body (b ++ m2) env) depth e = Ok r2 s2 ->
  exists before (s0 : PS F eng) pieces s rest1 rest2, ps_trace s0 = before /\ List.length before = 5 /\
    performs env (callbacks env depth) b s0 pieces s /\ writes_nothing (before ++ List.concat pieces) /\
    ps_trace s1 = (before ++ List.concat pieces) ++ rest1 /\ ps_trace s2 = (before ++ List.concat pieces) ++ rest2 /\
    (m1 = [] -> rest1 = [] \/ exists l, rest1 = [Ev WritePDF l]).
Proof.
  intros b m1 m2 depth e r1 s1 r2 s2 H1 H2.
  assert (N : forall m r s, process (with_body (b ++ m) env) depth e = Ok r s -> exists s0 sb, opening (callbacks env depth) (initial e) = Ok tt s0 /\ processInstructions env (callbacks env depth) b s0 = Ok tt sb /\ exists rest, ps_trace s = ps_trace sb ++ rest /\ (m = [] -> rest = [] \/ exists l, rest = [Ev WritePDF l])).
  { intros m r s H. rewrite process_split in H. apply bind_ok in H as ([] & s0 & A & H). apply bind_ok in H as ([] & sc & B & H). rewrite instrs_app in B. apply bind_ok in B as ([] & sb & B & C).
    exists s0, sb. split; [exact A|]. split; [exact B|].
    destruct (performed env Hshuffle (callbacks env depth) (callbacks_adds env Hshuffle depth) _ _ _ C) as (p & _ & T & _).
    unfold closing in H. apply bind_ok in H as (err & s4 & H4 & H). apply lift_ok in H4. injection H4 as <- <-.
    destruct (engError (ps_eng sc)) as [er|]; [injection H as <- <-; exists (List.concat p); split; [exact T|intros ->; left; injection C as ->; rewrite <- (app_nil_r (ps_trace sc)) in T at 1; apply app_inv_head in T; symmetry; exact T]|].
    apply bind_ok in H as ([] & s5 & H5 & H). apply lift_ok in H. injection H as <- <-.
    assert (G5 := command_adds (callbacks (eng:=eng) env depth) (callbacks_adds env Hshuffle depth) WritePDF writePDF sc). unfold write_pdf in H5. rewrite H5 in G5. destruct G5 as (l & T5 & _).
    exists (List.concat p ++ [Ev WritePDF l]). rewrite T5, T, <- app_assoc. split; [reflexivity|]. intros ->. injection C as ->. right. exists l.
    rewrite <- (app_nil_r (ps_trace sc)) in T at 1. apply app_inv_head in T. rewrite <- T. reflexivity. }
  destruct (N _ _ _ H1) as (s0 & sb & A & B & rest1 & T1 & E1). destruct (N _ _ _ H2) as (s0' & sb' & A' & B' & rest2 & T2 & _).
  rewrite A in A'. injection A' as <-. rewrite B in B'. injection B' as <-.
  destruct (performed env Hshuffle (callbacks env depth) (callbacks_adds env Hshuffle depth) _ _ _ B) as (p & P & T & Nb).
  destruct (opened _ _ _ A) as [L W]. exists (ps_trace s0), s0, p, sb, rest1, rest2. rewrite T1, T2, T. repeat split; try exact L; try exact P; try exact E1. apply nothing_app. split; [exact W|exact Nb].
Qed.
Lemma beginning : forall b m1 m2 depth (e : est eng) r1 s1 r2 s2,
  process (with_body (b ++ m1) env) depth e = Ok r1 s1 -> process (with_body (b ++ m2) env) depth e = Ok r2 s2 ->
  exists before (s0 : PS F eng) pieces s rest1 rest2, ps_trace s0 = before /\ List.length before = 5 /\
    performs env (callbacks env depth) b s0 pieces s /\
    ps_trace s1 = (before ++ List.concat pieces) ++ rest1 /\ ps_trace s2 = (before ++ List.concat pieces) ++ rest2.
Proof.
  intros b m1 m2 depth e r1 s1 r2 s2 H H'. destruct (common_start b m1 m2 depth e r1 s1 r2 s2 H H') as (be & s0 & p & sb & q1 & q2 & A & B & C & _ & T1 & T2 & _).
  exists be, s0, p, sb, q1, q2. auto.
Qed.
Lemma longer : forall b more depth (e : est eng) r s r' s',
  process (with_body b env) depth e = Ok r s -> process (with_body (b ++ more) env) depth e = Ok r' s' ->
  exists evs rest, writes_nothing evs /\ (ps_trace s = evs \/ exists l, ps_trace s = evs ++ [Ev WritePDF l]) /\ ps_trace s' = evs ++ rest.
Proof.
  intros b more depth e r s r' s' H H'. rewrite <- (app_nil_r b) in H. destruct (common_start b [] more depth e r s r' s' H H') as (be & s0 & p & sb & r1 & r2 & _ & _ & _ & W & T1 & T2 & E).
  exists (be ++ List.concat p), r2. split; [exact W|]. split; [|exact T2]. destruct (E eq_refl) as [->|[l ->]]; [left; rewrite T1; apply app_nil_r|right; exists l; exact T1].
Qed.
Lemma seen_split : forall (a b : list (event F)) p, exists rest, seen p (a ++ b) = seen p a ++ rest.
Proof. induction a as [|x a IH]; intros b p; [exists (seen p b); reflexivity|]. destruct (IH b (pen_event p x)) as [rest E]. exists rest. cbn [app seen]. rewrite E. apply app_assoc. Qed.
Lemma seen_last : forall (a : list (event F)) l p, seen p (a ++ [Ev WritePDF l]) = seen p a.
Proof. induction a as [|x a IH]; intros l p; [reflexivity|]. cbn [app seen]. rewrite IH. reflexivity. Qed.
Lemma longer_seen : forall b more depth (e : est eng) r s r' s',
  process (with_body b env) depth e = Ok r s -> process (with_body (b ++ more) env) depth e = Ok r' s' ->
  forall p, exists rest, seen p (ps_trace s') = seen p (ps_trace s) ++ rest.
Proof.
  intros b more depth e r s r' s' H H' p. destruct (longer b more depth e r s r' s' H H') as (evs & rest & _ & T & T'). rewrite T'.
  destruct (seen_split evs rest p) as [m E]. exists m. rewrite E. destruct T as [->|[l ->]]; [reflexivity|rewrite seen_last; reflexivity].
Qed.
End Prefix.
