(** An engine whose cursor moves in binary64, for the example of C50. *)
From Coq Require Import ZArith Reals.
From Verif Require Import GoStr Num Style Class Instr Engine Proc Lines LinesSpec WriteSpec FloatSpec FloatFillSpec FloatWit.

(** A character is 1.1 wide. *)
Definition ruler_width (f : Font NumF64) (s : bytes) : NumF64 := f_tenths (11 * Z.of_nat (List.length s)).
Definition ruler : Engine NumF64 := mkEngine NumF64 (NumF64 * Font NumF64)
  (fun e => (fst e, of_Z 10)) (fun _ => (of_Z 10, of_Z 10, of_Z 200, of_Z 287)) (fun _ => of_Z 210) (fun _ => of_Z 297)
  (fun _ => (of_Z 10, of_Z 10, of_Z 10, of_Z 10)) (fun _ => of_Z 5) (fun e s => ruler_width (snd e) s)
  (fun _ => 1%Z) (fun _ => None)
  (fun c e => match c with SetX x => (x, snd e) | ChangeFont f => (fst e, f) | _ => e end)
  (fun e => EDone e) (fun s e => EDone (add (fst e) (ruler_width (snd e) s), snd e)) (fun e => EDone e) (fun _ => None).
Lemma ruler_writer : float_writer ruler ruler_width snd.
Proof.
  split.
  - reflexivity.
  - intros f e. split; reflexivity.
  - intros r g b e. split; reflexivity.
  - reflexivity.
  - intros s e. eexists. split; reflexivity.
  - intros f e. reflexivity.
Qed.
Definition ruler_state : PS NumF64 ruler := mkPS (eng:=ruler) (of_Z 10, SFont DefaultStyle) DefaultStyle false [].
Definition no_calls : cb -> M ruler unit := fun _ => ret tt.
(** Where the cursor is set to while writing. *)
Definition set_at (evs : list (event NumF64)) : list NumF64 := flat_map (fun e => match ev_cmd e with Simple (SetX x) => [x] | _ => [] end) evs.
