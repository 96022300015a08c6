(** An engine whose cursor moves down in binary64, for the example of C52. *)
From Coq Require Import ZArith Reals.
From Verif Require Import GoStr Num Style Class Instr Engine Proc Lines LinesSpec WriteSpec FloatSpec FloatWriteSpec FloatWit FloatFillWit.

(** A character is 1.1 wide, all fonts are 0.1 high. *)
Definition ladder : Engine NumF64 := mkEngine NumF64 (NumF64 * Font NumF64)
  (fun e => (of_Z 10, fst e)) (fun _ => (of_Z 10, of_Z 10, of_Z 200, of_Z 287)) (fun _ => of_Z 210) (fun _ => of_Z 297)
  (fun _ => (of_Z 10, of_Z 10, of_Z 10, of_Z 10)) (fun _ => f_tenths 1) (fun e s => ruler_width (snd e) s)
  (fun _ => 1%Z) (fun _ => None)
  (fun c e => match c with LineFeed n => (add (fst e) (mul (f_tenths 1) n), snd e) | ChangeFont f => (fst e, f) | _ => e end)
  (fun e => EDone e) (fun s e => EDone e) (fun e => EDone e) (fun _ => None).
Lemma ladder_printer : float_printer ladder ruler_width (fun _ => f_tenths 1) snd.
Proof.
  split.
  - reflexivity.
  - reflexivity.
  - intros f e. split; reflexivity.
  - intros r g b e. split; reflexivity.
  - intros x e. split; reflexivity.
  - intros n e. split; [reflexivity|]. intros _. reflexivity.
  - intros s e. eexists. split; [reflexivity|]. split; reflexivity.
  - intros e. split; reflexivity.
Qed.
Definition ladder_state : PS NumF64 ladder := mkPS (eng:=ladder) (f_tenths 3, SFont DefaultStyle) DefaultStyle false [].
Definition ladder_calls : cb -> M ladder unit := fun _ => ret tt.
