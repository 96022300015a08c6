(** Model of the command cmd/xpdf. *)
From Verif Require Import GoStr Path PathSpec.

(** The files: the contents of the file at each place. A path is followed lexically from the
    working directory (no links). *)
Definition Files := list bytes -> option bytes.
Definition put (at_ : list bytes) (content : bytes) (fs : Files) : Files :=
  fun l => if list_eq_dec (list_eq_dec Ascii.ascii_dec) l at_ then Some content else fs l.

Section Main.
Context {Doc Fonts Eng : Type}.
Variable load : Files -> bytes -> option Doc.             (* xdoc.LoadFromFile *)
Variable can_create : Files -> bytes -> bool.             (* os.Create succeeds *)
Variable load_fonts : Files -> bytes -> option Fonts.     (* font.LoadRegistryFromFile *)
Variable new_engine : Files -> Fonts -> Doc -> option Eng. (* engine.NewFPDF *)
Variable process : Files -> Eng -> Doc -> bytes * bool.   (* Process: the bytes written, and whether it succeeds *)
Variable cwd : list bytes.                                (* the working directory *)

(** cmd/xpdf/main.go:17-39; [args] are the arguments after the command's name *)
Definition input_of (args : list bytes) : bytes :=
  match args with [] => $"../../examples/grid.xml" | a :: _ => a end.
Definition output_of (args : list bytes) : bytes :=
  match args with _ :: b :: _ => b | _ => default_output (input_of args) end.

(** cmd/xpdf/main.go:16-73 main: the exit code and the files afterwards *)
Definition main (args : list bytes) (fs : Files) : nat * Files :=
  match load fs (input_of args) with
  | None => (2, fs)
  | Some doc =>
      if can_create fs (output_of args) then
        let fs1 := put (leads cwd (output_of args)) [] fs in
        match load_fonts fs1 ($"fonts/fontdef.toml") with
        | None => (2, fs1)
        | Some fonts =>
            match new_engine fs1 fonts doc with
            | None => (3, fs1)
            | Some eng =>
                let '(out, good) := process fs1 eng doc in
                (if good then 0 else 4, put (leads cwd (output_of args)) out fs1)
            end
        end
      else (2, fs)
  end.
End Main.
