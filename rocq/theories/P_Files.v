(** Properties C73-C75 and C80-C84: fonts, file names and the command.

    Where a path leads ([leads]), its normal form and names are specified in PathSpec; doing
    actions in turn and the fonts of a definition in FontSpec. *)
From Coq Require Import ZArith QArith Permutation.
From Verif Require Import GoStr Num Path PathSpec PathFacts Font FontSpec FontThms Cmd CmdThms CmdWit.
Local Open Scope nat_scope.

(** C73: any callback, changing any state *)
Theorem C73_each : forall (S E : Type) (do : Descriptor -> S -> S * option E) r s s' err,
  each do r s = (s', err) <-> outcome do (r_fonts r) s s' err.
Proof. exact @each_outcome. Qed.
Print Assumptions C73_each.
Theorem C73_registered : forall fds,
  r_fonts (fold_left (fun r fd => register fd r) fds new_registry) = fds.
Proof. exact (fun fds => proj1 (registered fds new_registry)). Qed.
Print Assumptions C73_registered.
Example C73_example : let fd n := mkFD n [] [] in let r := mkReg [] [fd ($"a"); fd ($"b"); fd ($"c")] in
  let do (fd : Descriptor) s := (s ++ [fd_name fd], if beqb (fd_name fd) ($"b") then Some 7 else None) in
  each do r [] = ([$"a"; $"b"], Some 7) /\ outcome do (r_fonts r) [] [$"a"; $"b"] (Some 7).
Proof. cbv zeta. split; [reflexivity|]. apply each_outcome. reflexivity. Qed.

(** C74 *)
Theorem C74_absolute : forall wd n, absolute n -> resolve_file wd n = Some n.
Proof. exact resolve_abs. Qed.
Print Assumptions C74_absolute.
(** [is_abs] tells whether the working directory is absolute. *)
Theorem C74_relative : forall wd n, ~ absolute n -> exists p, resolve_file wd n = Some p /\
  (absolute p <-> absolute wd) /\ (forall d, leads d p = leads (leads d wd) n) /\
  (if is_abs wd then normal_abs p else normal_rel p).
Proof. exact resolve_leads. Qed.
Print Assumptions C74_relative.
Example C74_example : resolve_file ($"/home/me") ($"./img//a/../../b.png") = Some ($"/home/me/b.png") /\
  resolve_file ($"/home/me") ($"../../../b.png") = Some ($"/b.png") /\ resolve_file ($"../x") ($"../../b.png") = Some ($"../../b.png") /\
  resolve_file ($"/home/me") ($"/tmp/../b.png") = Some ($"/tmp/../b.png") /\
  leads [] ($"/home/me/b.png") = [$"home"; $"me"; $"b.png"] /\ ~ absolute ($"./img").
Proof.
  repeat split; try (vm_compute; reflexivity). intros [q H]. apply (f_equal (hd "a"%char)) in H. discriminate H.
Qed.

(** C75 is false of the code: run on x.pdf in the working directory. *)
Theorem C75_refuted : exists cwd input, name input /\ leads cwd (default_output input) = leads cwd input.
Proof.
  exists [], ($"x.pdf"). split; [|vm_compute; reflexivity].
  split; [|split; [|split]]; [vm_compute; discriminate ..|]. vm_compute. intuition discriminate.
Qed.
Print Assumptions C75_refuted.
(** C75: exactly the files named *.pdf in the working directory are overwritten. [d] is the part of the
    input's path up to the last slash, [e] the rest: no file has a path that ends in a slash, "." or
    "..". *)
Theorem C75_overwrites : forall cwd d e, dir_part d -> name e ->
  leads cwd (default_output (d ++ e)) = leads cwd (d ++ e) <-> leads cwd d = cwd /\ exists stem, e = stem ++ $".pdf".
Proof. exact output_is_input. Qed.
Print Assumptions C75_overwrites.
(** The name of the output *)
Theorem C75_output : forall d e, dir_part d -> name e ->
  (~ In "."%char e /\ default_output (d ++ e) = e ++ $".pdf") \/
  exists stem suf, e = stem ++ "."%char :: suf /\ ~ In "."%char suf /\ default_output (d ++ e) = stem ++ $".pdf".
Proof. exact default_output_is. Qed.
Print Assumptions C75_output.
Example C75_example : default_output ($"docs/a.b.xml") = $"a.b.pdf" /\ default_output ($"../plain") = $"plain.pdf" /\
  leads [$"u"] ($"a/../x.pdf") = leads [$"u"] (default_output ($"a/../x.pdf")) /\ dir_part ($"a/../").
Proof. repeat split; try (vm_compute; reflexivity). right. exists ($"a/.."). reflexivity. Qed.

(** C80: [Some defs] is what the decoder found in the file. *)
Theorem C80_definitions : forall wd file defs, (absolute file \/ exists d, wd = Some d /\ absolute d) ->
  exists r, load_registry (Some defs) wd file = Ok r /\ r_mono r = ds_mono defs /\
    Forall2 (fun fd p => describes (removelast (leads (leads [] (match wd with Some d => d | None => [] end)) file)) fd (fst p) (snd p))
      (r_fonts r) (pairs defs).
Proof. exact load_registry_is. Qed.
Print Assumptions C80_definitions.
Theorem C80_fails : forall wd file, load_registry None wd file = Fail.
Proof. reflexivity. Qed.
Print Assumptions C80_fails.
Example C80_example : load_registry (Some (mkDefs ($"M") [mkDef ($"A") [mkSD ($"regular") ($"a.ttf"); mkSD ($"bold") ($"/f/b.ttf")];
    mkDef ($"C") [mkSD ($"italic") ($"../c.ttf")]])) (Some ($"/home")) ($"fonts/fontdef.toml") =
  Ok (mkReg ($"M") [mkFD ($"A") ($"regular") ($"/home/fonts/a.ttf"); mkFD ($"A") ($"bold") ($"/f/b.ttf"); mkFD ($"C") ($"italic") ($"/home/c.ttf")]).
Proof. vm_compute. reflexivity. Qed.

(** C81: [read] is the reading of files and [bad] tells whether gofpdf is in error after a number of
    calls (last first). *)
Theorem C81_engine : forall (F : Num) (read : bytes -> option bytes) (bad : list (call F) -> bool) r o f left top right bottom mono calls,
  new_fpdf read bad r o f left top right bottom = Ok (mono, calls) <->
  mono = (if beqb (r_mono r) ($"") then $"Courier" else r_mono r) /\
  exists fonts, let new := New (if beqb o ($"portrait") then $"P" else if beqb o ($"landscape") then $"L" else $"") ($"mm") (paper f) ($"") in
    adds_fonts read bad [new] (r_fonts r) fonts /\
    rev calls = new :: fonts ++ [SetAutoPageBreak true bottom; SetMargins left top right].
Proof. exact @new_fpdf_iff. Qed.
Print Assumptions C81_engine.
Example C81_example : let r := mkReg [] [mkFD ($"A") ($"bold") ($"/a")] in let l := ($"landscape") in
  new_fpdf (F:=NumQ) (fun _ => Some ($"data")) (fun _ => false) r l ($"a3") 1%Q 2%Q 3%Q 4%Q =
    Ok ($"Courier", [SetMargins (1%Q : NumQ) 2%Q 3%Q; SetAutoPageBreak true (4%Q : NumQ); AddFont ($"A") ($"B") ($"data"); New ($"L") ($"mm") ($"A3") []]) /\
  new_fpdf (F:=NumQ) (fun _ => None) (fun _ => false) r l ($"a3") 1%Q 2%Q 3%Q 4%Q = Fail.
Proof. split; reflexivity. Qed.

(** C82: a font of a document with style [s], weight [w] and decoration [deco] *)
Theorem C82_letters : forall s w deco st, asks s w st ->
  Permutation (fpdf_font_style s w deco) (letters_of st ++ if beqb deco ($"underline") then $"U" else $"") /\
  font_file_style st = letters_of st.
Proof. exact (fun s w deco st H => conj (asked s w deco st H) (file_letters st)). Qed.
Print Assumptions C82_letters.
Theorem C82_always : forall s w, exists st, asks s w st.
Proof. exact always_asks. Qed.
Print Assumptions C82_always.
Example C82_example : asks ($"italic") ($"bold") ($"bold+italic") /\
  fpdf_font_style ($"italic") ($"bold") ($"underline") = $"IBU" /\ letters_of ($"bold+italic") = $"BI".
Proof. repeat split; constructor. Qed.

(** C83: whatever loading, fonts, engine and processing do *)
Theorem C83_others : forall (Doc Fonts Eng : Type) (load : Files -> bytes -> option Doc) can_create (load_fonts : Files -> bytes -> option Fonts)
  (new_engine : Files -> Fonts -> Doc -> option Eng) process cwd args fs code fs' l,
  main load can_create load_fonts new_engine process cwd args fs = (code, fs') -> l <> leads cwd (output_of args) -> fs' l = fs l.
Proof. exact @main_others. Qed.
Print Assumptions C83_others.
Theorem C83_arguments : forall input output rest,
  input_of (input :: output :: rest) = input /\ output_of (input :: output :: rest) = output /\
  input_of [input] = input /\ output_of [input] = default_output input.
Proof. exact (fun _ _ _ => conj eq_refl (conj eq_refl (conj eq_refl eq_refl))). Qed.
Print Assumptions C83_arguments.
Theorem C83_success : forall (Doc Fonts Eng : Type) (load : Files -> bytes -> option Doc) can_create (load_fonts : Files -> bytes -> option Fonts)
  (new_engine : Files -> Fonts -> Doc -> option Eng) process cwd args fs fs',
  main load can_create load_fonts new_engine process cwd args fs = (0, fs') -> exists doc fonts eng out,
  load fs (input_of args) = Some doc /\ can_create fs (output_of args) = true /\
  let fs1 := put (leads cwd (output_of args)) [] fs in
  load_fonts fs1 ($"fonts/fontdef.toml") = Some fonts /\ new_engine fs1 fonts doc = Some eng /\
  process fs1 eng doc = (out, true) /\ fs' (leads cwd (output_of args)) = Some out.
Proof. exact @main_success. Qed.
Print Assumptions C83_success.
Theorem C83_code : forall (Doc Fonts Eng : Type) (load : Files -> bytes -> option Doc) can_create (load_fonts : Files -> bytes -> option Fonts)
  (new_engine : Files -> Fonts -> Doc -> option Eng) process cwd args fs,
  In (fst (main load can_create load_fonts new_engine process cwd args fs)) [0; 2; 3; 4].
Proof. exact @main_code. Qed.
Print Assumptions C83_code.
Example C83_example : let '(code, fs) := world_main true [$"a.xml"] world_files in
  code = 0 /\ fs [$"a.xml"] = Some ($"in") /\ fs [$"a.pdf"] = Some ($"PDF").
Proof. vm_compute. repeat split. Qed.

(** C84 is false of the code: with the fonts missing, an existing output file is emptied. *)
Theorem C84_refuted : exists args fs code fs', world_main false args fs = (code, fs') /\ code <> 0 /\
  fs (leads [] (output_of args)) = Some ($"old") /\ fs' (leads [] (output_of args)) = Some [].
Proof.
  exists [$"a.xml"], world_files, 2. eexists. split; [reflexivity|]. split; [discriminate|]. split; vm_compute; reflexivity.
Qed.
Print Assumptions C84_refuted.
(** C84, proved: nothing changes if the input cannot be loaded or the output not be created; otherwise
    the output is empty or what processing wrote. *)
Theorem C84_untouched_partial : forall (Doc Fonts Eng : Type) (load : Files -> bytes -> option Doc) can_create (load_fonts : Files -> bytes -> option Fonts)
  (new_engine : Files -> Fonts -> Doc -> option Eng) process cwd args fs,
  load fs (input_of args) = None \/ can_create fs (output_of args) = false ->
  main load can_create load_fonts new_engine process cwd args fs = (2, fs).
Proof. exact @main_untouched. Qed.
Print Assumptions C84_untouched_partial.
Theorem C84_failed : forall (Doc Fonts Eng : Type) (load : Files -> bytes -> option Doc) can_create (load_fonts : Files -> bytes -> option Fonts)
  (new_engine : Files -> Fonts -> Doc -> option Eng) process cwd args fs code fs',
  main load can_create load_fonts new_engine process cwd args fs = (code, fs') -> code <> 0 ->
  fs' = fs \/ code <> 4 /\ fs' (leads cwd (output_of args)) = Some [] \/
  code = 4 /\ exists doc fonts eng, let fs1 := put (leads cwd (output_of args)) [] fs in
    exists out, process fs1 eng doc = (out, false) /\ load fs (input_of args) = Some doc /\ load_fonts fs1 ($"fonts/fontdef.toml") = Some fonts /\
    new_engine fs1 fonts doc = Some eng /\ fs' (leads cwd (output_of args)) = Some out.
Proof. exact @main_failed. Qed.
Print Assumptions C84_failed.
Example C84_example : let '(code, fs) := world_main true [$"missing.xml"; $"a.pdf"] world_files in code = 2 /\ fs [$"a.pdf"] = Some ($"old").
Proof. vm_compute. split; reflexivity. Qed.
