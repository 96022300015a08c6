(** Proofs for C113 *)
From Verif Require Import GoStr Path PathSpec Cmd CmdOut CmdOutSpec.

Section Thms.
Context {Doc Fonts Eng : Type}.
Variable load : Files -> bytes -> (Doc + bytes) * bytes.
Variable create : Files -> bytes -> option bytes.
Variable load_fonts : Files -> bytes -> Fonts + bytes.
Variable new_engine : Files -> Fonts -> Doc -> Eng + bytes.
Variable process : Files -> Eng -> Doc -> bytes * option bytes * bytes.
Variable cwd : list bytes.

Lemma out_same : forall args fs, fst (main_out load create load_fonts new_engine process cwd args fs) =
  main (fun fs p => good (fst (load fs p))) (fun fs p => match create fs p with None => true | Some _ => false end)
    (fun fs p => good (load_fonts fs p)) (fun fs f d => good (new_engine fs f d))
    (fun fs e d => (fst (fst (process fs e d)), match snd (fst (process fs e d)) with None => true | Some _ => false end)) cwd args fs.
Proof.
  intros args fs. unfold main_out, main. destruct (load fs (input_of args)) as [[doc|err] said]; cbn [fst good]; [|reflexivity].
  destruct (create fs (output_of args)); [reflexivity|]. cbv zeta.
  destruct (load_fonts _ _) as [fonts|err]; cbn [good]; [|reflexivity].
  destruct (new_engine _ fonts doc) as [eng|err]; cbn [good]; [|reflexivity].
  destruct (process _ eng doc) as [[out [err|]] more]; reflexivity.
Qed.

Lemma out_error : forall args fs code fs' printed, main_out load create load_fonts new_engine process cwd args fs = (code, fs', printed) ->
  let fs1 := put (leads cwd (output_of args)) [] fs in
  exists text, says_itself load create load_fonts new_engine process fs fs1 (input_of args) (output_of args) text /\
  ((code = 0 /\ printed = text /\ forall c step err, ~ fails load create load_fonts new_engine process fs fs1 (input_of args) (output_of args) c step err) \/
   code <> 0 /\ exists step err, fails load create load_fonts new_engine process fs fs1 (input_of args) (output_of args) code step err /\
     printed = text ++ $"ERROR " ++ step ++ $": " ++ err ++ [lf]).
Proof.
  intros args fs code fs' printed E fs1. unfold main_out in E. fold fs1 in E.
  destruct (load fs (input_of args)) as [[doc|err] said] eqn:L.
  2:{ injection E as <- _ <-. exists said. split; [split; [intros e d (sd & f & R); destruct R as (R1 & R2 & R3 & R4); congruence|intros _; rewrite L; reflexivity]|]. right. split; [discriminate|].
      exists ($"compiling input"), err. split; [eapply Fails_load; exact L|reflexivity]. }
  destruct (create fs (output_of args)) as [err|] eqn:C.
  { injection E as <- _ <-. exists said. split; [split; [intros e d (sd & f & R); destruct R as (R1 & R2 & R3 & R4); congruence|intros _; rewrite L; reflexivity]|]. right. split; [discriminate|].
    exists ($"create output-file"), err. split; [eapply Fails_create; eassumption|reflexivity]. }
  destruct (load_fonts fs1 _) as [fonts|err] eqn:Fo.
  2:{ injection E as <- _ <-. exists said. split; [split; [intros e d (sd & f & R); destruct R as (R1 & R2 & R3 & R4); congruence|intros _; rewrite L; reflexivity]|]. right. split; [discriminate|].
      exists ($"loading font-def"), err. split; [eapply Fails_fonts; eassumption|reflexivity]. }
  destruct (new_engine fs1 fonts doc) as [eng|err] eqn:N.
  2:{ injection E as <- _ <-. exists said. split; [split; [intros e d (sd & f & R); destruct R as (R1 & R2 & R3 & R4); congruence|intros _; rewrite L; reflexivity]|]. right. split; [discriminate|].
      exists ($"create fpdf-engine"), err. split; [eapply Fails_engine; eassumption|reflexivity]. }
  destruct (process fs1 eng doc) as [[out [err|]] more] eqn:P; injection E as <- _ <-; exists (said ++ more);
    (split; [split; [intros e d (sd & f & R1 & R2 & R3 & R4); assert (d = doc) by congruence; subst d; assert (f = fonts) by congruence; subst f; assert (e = eng) by congruence; subst e; rewrite L, P; reflexivity|intros No; exfalso; apply (No eng doc); exists said, fonts; auto]|]).
  - right. split; [discriminate|]. exists ($"processing input"), err. split; [eapply Fails_process; eassumption|].
    rewrite <- app_assoc. reflexivity.
  - left. split; [reflexivity|]. split; [reflexivity|]. intros c step err Fl. destruct Fl; congruence.
Qed.
End Thms.
