(** Concrete cases for C108. *)
From Coq Require Import QArith.
From Verif Require Import GoStr Num Style Class Instr Engine Layout LayoutSpec Lines LinesSpec WriteSpec Proc RefEngine ProcView ProcSpec ProcWit LinesWit WriteThms OutputSpec LinesView ImageFacts PaintSpec.
Local Open Scope nat_scope.

(** A mark in one word. *)
Definition kind {F : Num} (m : mark (F:=F)) : bytes :=
  match m with
  | Shape (Filled _ _ _ _ _) => $"(background)"
  | Shape (Stroked _ _ _) => $"(border)"
  | Shape (Placed src _ _ _ _) => $"(image " ++ src ++ $")"
  | Written t => unspaced t
  end.
Definition first_pen : pen (F:=NumQ) := mkPen (F:=NumQ) 1%Q (mkRGB 1 2 3) (mkRGB 4 5 6) (0%Q, 0%Q) [].
(** The first callback of a run, with its pen. *)
Fixpoint first_with {F : Num} (p : pen (F:=F)) (evs : list (event F)) : option (cb * pen (F:=F) * list (event F)) :=
  match evs with
  | [] => None
  | Ev c [] :: evs' => first_with (pen_event p (Ev c [])) evs'
  | Ev c ((k, sub) :: _) :: _ => Some (k, p, sub)
  end.
Lemma first_with_call : forall (F : Num) (evs : list (event F)) p c q sub, first_with p evs = Some (c, q, sub) -> call_with p evs c q sub.
Proof.
  intros F evs. induction evs as [|[cm [|[k sub'] calls]] evs IH]; intros p c q sub H; [discriminate H|..].
  - apply W_later, IH, H.
  - injection H as <- <- <-. apply W_now, W_this.
Qed.
Definition logo_header : list (instr NumQ) := [IImage no_style ($"logo"); IText no_style [ITextBlock ($"a b")]].
Lemma header_drawn : exists (s' : PS NumQ RefEngine) q sub, ref_doc logo_header [] [] = Ok None s' /\ call_with first_pen (ps_trace s') Header q sub /\
  map kind (seen q sub) = [$"(image logo)"; $"a"; $"b"].
Proof.
  destruct (ok_none (ref_doc logo_header [] []) (fun s => match first_with first_pen (ps_trace s) with Some (c, q, sub) => (c, map kind (seen q sub)) = (Header, [$"(image logo)"; $"a"; $"b"]) | None => False end)) as (s & H1 & H2); [vm_compute; reflexivity|].
  destruct (first_with first_pen (ps_trace s)) as [[[c q] sub]|] eqn:E; [|destruct H2]. injection H2 as -> Hw. exists s, q, sub. split; [exact H1|]. split; [exact (first_with_call _ _ _ _ _ _ E)|exact Hw].
Qed.
