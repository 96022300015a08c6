(** Properties C01-C04: package text. *)
From Verif Require Import GoStr GoStrFacts Text TextSpec TextFacts.

(** C01: whatever the input, the result is in normal form. *)
Theorem C01_whitespace_normal_form : forall s, normal_form (whitespace_rectified s).
Proof. exact rectified_normal. Qed.
Print Assumptions C01_whitespace_normal_form.
Example C01_case : whitespace_rectified ($"  a " ++ [lf; tab] ++ $"b \ \  c" ++ [cr]) = $"a b\\c".
Proof. vm_compute. reflexivity. Qed.

(** C02: the result is the words of the input joined by one space, less the spaces next
    to a backslash. *)
Theorem C02_whitespace_words : forall s, whitespace_rectified s = rectified_spec s.
Proof. exact rectified_correct. Qed.
Print Assumptions C02_whitespace_words.
(** C02: and no non-blank byte is lost, added or moved. *)
Theorem C02_whitespace_nonblank : forall s, nonblank (whitespace_rectified s) = nonblank s.
Proof. exact rectified_nonblank. Qed.
Print Assumptions C02_whitespace_nonblank.
Example C02_case : words ($" x  yz" ++ [lf] ++ $"w ") = [$"x"; $"yz"; $"w"].
Proof. vm_compute. reflexivity. Qed.

(** C03: idempotence. *)
Theorem C03_whitespace_idempotent : forall s,
  whitespace_rectified (whitespace_rectified s) = whitespace_rectified s.
Proof. exact (fun s => normal_fixed _ (rectified_normal s)). Qed.
Print Assumptions C03_whitespace_idempotent.
(** C03: exactly the normal forms are left alone. *)
Theorem C03_whitespace_fixed : forall s, normal_form s <-> whitespace_rectified s = s.
Proof.
  exact (fun s => conj (normal_fixed s) (fun H => eq_ind _ normal_form (rectified_normal s) _ H)).
Qed.
Print Assumptions C03_whitespace_fixed.

(** C04: the loop of RemoveTwins returns within [length s + 1] iterations, and further
    iterations would not be taken. *)
Theorem C04_remove_twins_terminates : forall s t n,
  List.length s < n -> remove_twins_loop n s t = Some (remove_twins s t).
Proof. exact remove_twins_run. Qed.
Print Assumptions C04_remove_twins_terminates.
(** C04: no twin is left. *)
Theorem C04_remove_twins_none_left : forall s t, t <> [] -> ~ occurs (t ++ t) (remove_twins s t).
Proof. exact (fun s t => proj1 (remove_twins_post s t)). Qed.
Print Assumptions C04_remove_twins_none_left.
(** C04: nothing is changed when there is nothing to remove, or the twin is empty. *)
Theorem C04_remove_twins_unchanged : forall s t,
  t = [] \/ ~ occurs (t ++ t) s -> remove_twins s t = s.
Proof. exact (fun s t => proj2 (remove_twins_post s t)). Qed.
Print Assumptions C04_remove_twins_unchanged.
(** C04: a one-byte twin: runs collapse and nothing else changes. *)
Theorem C04_remove_twins_collapse : forall c s, remove_twins s [c] = collapse c s.
Proof. exact (fun c s => remove_twins_collapse c s). Qed.
Print Assumptions C04_remove_twins_collapse.
Example C04_case : remove_twins ($"xabababy") ($"ab") = $"xaby" /\ remove_twins ($"a   b  ") [sp] = $"a b ".
Proof. vm_compute. split; reflexivity. Qed.
