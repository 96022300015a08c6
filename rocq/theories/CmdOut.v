(** Model of what the command cmd/xpdf prints, beside its exit code and the files (Cmd.v). *)
From Verif Require Import GoStr Path PathSpec Cmd.

Section MainOut.
Context {Doc Fonts Eng : Type}.
(** The steps as in Cmd.v, now with the text of their errors. Loading prints on the standard output
    (style/class.go:97, see ClassOut.v), and so does Process for images it cannot read
    (image.go:55, log.go:5-7); what Process prints is not modelled further. *)
Variable load : Files -> bytes -> (Doc + bytes) * bytes.
Variable create : Files -> bytes -> option bytes.          (* the error of os.Create *)
Variable load_fonts : Files -> bytes -> Fonts + bytes.
Variable new_engine : Files -> Fonts -> Doc -> Eng + bytes.
Variable process : Files -> Eng -> Doc -> bytes * option bytes * bytes. (* written to the file, error, printed *)
Variable cwd : list bytes.

(** cmd/xpdf/main.go:16-73 main: the exit code, the files afterwards and the standard output *)
Definition main_out (args : list bytes) (fs : Files) : nat * Files * bytes :=
  let '(r, said) := load fs (input_of args) in                                              (* :41 *)
  match r with
  | inr err => (2, fs, said ++ $"ERROR compiling input: " ++ err ++ [lf])                   (* :42-45 *)
  | inl doc =>
      match create fs (output_of args) with                                                 (* :46 *)
      | Some err => (2, fs, said ++ $"ERROR create output-file: " ++ err ++ [lf])           (* :47-50 *)
      | None =>
          let fs1 := put (leads cwd (output_of args)) [] fs in
          match load_fonts fs1 ($"fonts/fontdef.toml") with                                 (* :53 *)
          | inr err => (2, fs1, said ++ $"ERROR loading font-def: " ++ err ++ [lf])         (* :54-57 *)
          | inl fonts =>
              match new_engine fs1 fonts doc with                                           (* :59 *)
              | inr err => (3, fs1, said ++ $"ERROR create fpdf-engine: " ++ err ++ [lf])   (* :60-63 *)
              | inl eng =>
                  let '(out, failed, more) := process fs1 eng doc in                        (* :69 *)
                  let fs2 := put (leads cwd (output_of args)) out fs1 in
                  match failed with
                  | Some err => (4, fs2, said ++ more ++ $"ERROR processing input: " ++ err ++ [lf])   (* :70-73 *)
                  | None => (0, fs2, said ++ more)
                  end
              end
          end
      end
  end.
End MainOut.
