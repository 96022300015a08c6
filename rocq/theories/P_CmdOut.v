(** Property C113: what the command prints. Proofs are in CmdOutThms.v, the steps and their failures
    in CmdOutSpec.v. *)
From Coq Require Import List.
From Verif Require Import GoStr Path PathSpec Cmd CmdOut CmdOutSpec CmdOutThms.
Import ListNotations.

(** If a step fails, the last line printed names it with its error and the exit code is that of the
    step; otherwise the code is 0 and no step fails. Before that only the steps themselves print. *)
Theorem C113_printed : forall (Doc Fonts Eng : Type) (load : Files -> bytes -> (Doc + bytes) * bytes) create (load_fonts : Files -> bytes -> Fonts + bytes)
  (new_engine : Files -> Fonts -> Doc -> Eng + bytes) process cwd args fs code fs' printed,
  main_out load create load_fonts new_engine process cwd args fs = (code, fs', printed) ->
  let fs1 := put (leads cwd (output_of args)) [] fs in
  exists text, says_itself load create load_fonts new_engine process fs fs1 (input_of args) (output_of args) text /\
  ((code = 0 /\ printed = text /\ forall c step err, ~ fails load create load_fonts new_engine process fs fs1 (input_of args) (output_of args) c step err) \/
   code <> 0 /\ exists step err, fails load create load_fonts new_engine process fs fs1 (input_of args) (output_of args) code step err /\
     printed = text ++ $"ERROR " ++ step ++ $": " ++ err ++ [lf]).
Proof. exact @out_error. Qed.
Print Assumptions C113_printed.
(** The exit code and the files are those of [main], so C83 and C84 hold here too. *)
Theorem C113_same : forall (Doc Fonts Eng : Type) (load : Files -> bytes -> (Doc + bytes) * bytes) create (load_fonts : Files -> bytes -> Fonts + bytes)
  (new_engine : Files -> Fonts -> Doc -> Eng + bytes) process cwd args fs,
  fst (main_out load create load_fonts new_engine process cwd args fs) =
  main (fun fs p => good (fst (load fs p))) (fun fs p => match create fs p with None => true | Some _ => false end)
    (fun fs p => good (load_fonts fs p)) (fun fs f d => good (new_engine fs f d))
    (fun fs e d => (fst (fst (process fs e d)), match snd (fst (process fs e d)) with None => true | Some _ => false end)) cwd args fs.
Proof. exact @out_same. Qed.
Print Assumptions C113_same.
(** A run whose processing fails after loading and processing have printed something themselves. *)
Example C113_example :
  let '(code, fs', printed) := main_out (fun _ _ => (inl tt, $"added" ++ [lf])) (fun _ _ => None) (fun _ _ => inl tt) (fun _ _ _ => inl tt)
    (fun _ _ _ => ($"%PDF", Some ($"bad"), $"image" ++ [lf])) [] [$"a.xml"] (fun _ => None) in
  code = 4 /\ printed = $"added" ++ [lf] ++ $"image" ++ [lf] ++ $"ERROR processing input: bad" ++ [lf] /\ fs' [$"a.pdf"] = Some ($"%PDF").
Proof. vm_compute. repeat split. Qed.
