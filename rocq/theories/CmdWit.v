(** Examples for the properties of the command *)
From Verif Require Import GoStr Path PathSpec Cmd.

(** A small world: documents, fonts and engines are unit. *)
Definition world_main (fonts : bool) (args : list bytes) (fs : Files) : nat * Files :=
  main (Doc:=unit) (Fonts:=unit) (Eng:=unit) (fun fs p => match fs (leads [] p) with Some _ => Some tt | None => None end)
    (fun _ _ => true) (fun _ _ => if fonts then Some tt else None) (fun _ _ _ => Some tt) (fun _ _ _ => ($"PDF", true)) [] args fs.
Definition world_files : Files := put [$"a.xml"] ($"in") (put [$"a.pdf"] ($"old") (fun _ => None)).
