(** Concrete documents for the page numbers that are printed (C103). *)
From Coq Require Import QArith Permutation Lia.
From Verif Require Import GoStr Num Style Class Instr Engine Lines LinesSpec LinesView Proc RefEngine ProcView DrawSpec ProcSpec ImageFacts ProcWit OutputSpec NumberSpec FpdfWit.
Local Open Scope nat_scope.

Lemma ref_numbers : numbers_pages RefEngine.
Proof.
  assert (P : forall k, (forall e, r_page (k e) = r_page e) -> forall e, paged (eng:=RefEngine) (r_page e) (r_add_page k e)).
  { intros k K e. unfold r_add_page. destruct (r_page e =? 0)%Z; cbn; [split; [reflexivity|]; intros e'; rewrite K; reflexivity|]. split; [reflexivity|]. intros e1. split; [reflexivity|]. intros e'. rewrite K. reflexivity. }
  constructor.
  - intros c e. destruct c; reflexivity.
  - intros e. apply P. reflexivity.
  - intros t e. cbn. unfold r_write. destruct (_ && _); [apply P; reflexivity|reflexivity].
  - intros e. cbn. split; [reflexivity|]. reflexivity.
Qed.

(** A page number near the end of a page. *)
Definition low_number : list (instr NumQ) := [ISetY (85%Q : NumQ); IText no_style [ITextBlock ($"{cp}")]].
Definition low_env : Env NumQ := doc_env [] [] [] low_number.
Lemma number_behind : exists s' : PS NumQ RefEngine, process low_env 1 ref_start = Ok None s' /\
  page_log 0 (ps_trace s') = [mkEntry 1 2 ($"1")] /\ ~ numbers_texts low_env (numbered_own low_env) (e_body low_env) 0 (ps_trace s').
Proof.
  destruct (ok_none (process low_env 1 ref_start) (fun s => page_log 0 (ps_trace s) = [mkEntry 1 2 ($"1")])) as (s & H1 & H2); [vm_compute; reflexivity|].
  exists s. split; [exact H1|]. split; [exact H2|]. intros (ls & outs & S & T & E). rewrite H2 in E. clear H1 H2.
  change (Forall2 (shows low_env) [ISetY (85%Q : NumQ); IText no_style [ITextBlock ($"{cp}")]] ls) in S. inversion S as [|? l0 ? ls' Sh0 S']; subst. inversion S' as [|? l ? ls'' Sh S'']; subst. inversion S''; subst. clear S S' S''.
  cbn [shows] in Sh0. subst l0. destruct Sh as (sty & (f & Esty) & El).
  assert (K : exists st1, l = [(st1, [ITextBlock ($"{cp}")])] /\ beqb (HAlign (SAlign st1)) ($"block") = false) by (eexists; split; [exact El|subst sty; vm_compute; reflexivity]).
  clear El Esty. destruct K as (st1 & -> & B). cbn [List.concat app] in T. inversion T as [|? o ? os Ht T']; subst. inversion T'; subst. clear T T'. cbn [List.concat app fst snd] in *. rewrite app_nil_r in E. subst o.
  specialize (Ht B 0 _ eq_refl). cbn in Ht. discriminate Ht.
Qed.

Lemma ref_pdf_pages : gofpdf_pages RefPdf.
Proof. constructor; try (repeat split; reflexivity). Qed.

(** The first callback of a list of engine calls. *)
Fixpoint first_call {F : Num} (n : Z) (evs : list (event F)) : option (cb * Z * list (event F)) :=
  match evs with
  | [] => None
  | Ev c [] :: evs' => first_call (page_after n (Ev c [])) evs'
  | Ev c ((k, sub) :: _) :: _ => Some (k, page_in k n, sub)
  end.
Lemma first_call_on : forall (F : Num) (evs : list (event F)) n c m sub, first_call n evs = Some (c, m, sub) -> call_on n evs c m sub.
Proof.
  intros F evs. induction evs as [|[cm [|[k sub'] calls]] evs IH]; intros n c m sub H; [discriminate H|..].
  - apply O_later, IH, H.
  - injection H as <- <- <-. apply O_now, O_this.
Qed.
Definition numbered_header : list (instr NumQ) := [IText no_style [ITextBlock ($"page {cp}")]].
Lemma header_on_one : exists (s' : PS NumQ RefEngine) sub, ref_doc numbered_header [] [] = Ok None s' /\ call_on 0 (ps_trace s') Header 1 sub /\
  pages_after 1 sub = 1%Z /\ map unspaced (written sub) = [$"page"; $"1"].
Proof.
  destruct (ok_none (ref_doc numbered_header [] []) (fun s => match first_call 0 (ps_trace s) with Some (c, m, sub) => (c, m, pages_after 1 sub, map unspaced (written sub)) = (Header, 1%Z, 1%Z, [$"page"; $"1"]) | None => False end)) as (s & H1 & H2); [vm_compute; reflexivity|].
  destruct (first_call 0 (ps_trace s)) as [[[c m] sub]|] eqn:E; [|destruct H2]. injection H2 as -> -> Hp Hw. exists s, sub. split; [exact H1|]. split; [exact (first_call_on _ _ _ _ _ _ E)|]. split; [exact Hp|exact Hw].
Qed.
