(** Running commands: rewriting rules used by all proofs about the Processor. *)
From Verif Require Import GoStr Num Style Engine.

Section Facts.
Context {F : Num} {eng : Engine F}.
Notation PS := (PS F eng).

(** The state after a simple command, after several. *)
Definition emitted (c : scmd F) (s : PS) : PS := snd (emit c s).
Definition emits (l : list (scmd F)) (s : PS) : PS := fold_left (fun s c => emitted c s) l s.
Definition plain (l : list (scmd F)) : list (event F) := map (fun c => Ev (Simple c) []) l.

Lemma emit_eq : forall c (s : PS), emit c s = (tt, emitted c s).
Proof. reflexivity. Qed.
Lemma sbind_emit : forall A c (k : unit -> St eng A) s, sbind (emit c) k s = k tt (emitted c s).
Proof. reflexivity. Qed.
Lemma sbind_pair : forall A B (m : St eng A) (k : A -> St eng B) s, sbind m k s = k (fst (m s)) (snd (m s)).
Proof. intros. unfold sbind. destruct (m s); reflexivity. Qed.
Lemma emitted_trace : forall c (s : PS), ps_trace (emitted c s) = ps_trace s ++ [Ev (Simple c) []].
Proof. reflexivity. Qed.
Lemma emitted_sty : forall c (s : PS), ps_sty (emitted c s) = ps_sty s.
Proof. reflexivity. Qed.
Lemma emitted_prevent : forall c (s : PS), ps_prevent (emitted c s) = ps_prevent s.
Proof. reflexivity. Qed.
Lemma emitted_eng : forall c (s : PS), ps_eng (emitted c s) = simple c (ps_eng s).
Proof. reflexivity. Qed.
Lemma emits_nil : forall s, emits [] s = s.
Proof. reflexivity. Qed.
Lemma emits_cons : forall c l s, emits (c :: l) s = emits l (emitted c s).
Proof. reflexivity. Qed.
Lemma emits_app : forall l1 l2 s, emits (l1 ++ l2) s = emits l2 (emits l1 s).
Proof. intros. unfold emits. apply fold_left_app. Qed.
Lemma emits_trace : forall l s, ps_trace (emits l s) = ps_trace s ++ plain l.
Proof.
  induction l as [|c l IH]; intros s; [symmetry; apply app_nil_r|].
  rewrite emits_cons, IH, emitted_trace, <- app_assoc. reflexivity.
Qed.
Lemma emits_sty : forall l s, ps_sty (emits l s) = ps_sty s.
Proof. induction l as [|c l IH]; intros s; [reflexivity|]. rewrite emits_cons, IH. reflexivity. Qed.
Lemma emits_prevent : forall l s, ps_prevent (emits l s) = ps_prevent s.
Proof. induction l as [|c l IH]; intros s; [reflexivity|]. rewrite emits_cons, IH. reflexivity. Qed.
Lemma map_ev_plain : forall l, map ev_cmd (plain l) = map Simple l.
Proof. induction l; simpl; congruence. Qed.
End Facts.
Global Opaque emitted.
