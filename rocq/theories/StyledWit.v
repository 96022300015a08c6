(** Concrete documents for the fonts and colours of words (C102). *)
From Coq Require Import QArith Permutation.
From Verif Require Import GoStr Num Style Class Instr Engine Lines LinesSpec LinesView Proc RefEngine ProcView ProcSpec ImageFacts ProcWit OutputSpec StyledSpec StyledThms.
Local Open Scope nat_scope.

Definition red_paragraph : list (instr NumQ) := [IText no_style [IParagraph (with_text_color 255 0 0) ($"a")]].
Definition red_env : Env NumQ := doc_env [] [] [] red_paragraph.
Definition is_black (q : pen NumQ * bytes) : bool := match pen_color (fst q) with Some c => (R c =? 0)%Z | None => false end.
Lemma red_lost : exists s' : PS NumQ RefEngine, process red_env 1 ref_start = Ok None s' /\ ~ prints_texts red_env own_colour (e_body red_env) (ps_trace s').
Proof.
  destruct (ok_none (process red_env 1 ref_start) (fun s => existsb is_black (prints no_pen (ps_trace s)) = true)) as (s & H1 & H2); [vm_compute; reflexivity|].
  exists s. split; [exact H1|]. intros K0. destruct (K0 no_pen) as (ls & outs & S & T & E). rewrite E in H2. clear E. apply existsb_exists in H2 as (q & Hq & Hb).
  change (Forall2 (shows red_env) [IText no_style [IParagraph (with_text_color 255 0 0) ($"a")]] ls) in S. inversion S as [|? l ? ls' Sh S']; subst. inversion S'; subst. clear S S'. destruct Sh as (sty & (f & Esty) & El).
  assert (K : exists st1, l = [(st1, [IParagraph (with_text_color 255 0 0) ($"a")])] /\ R (TextColor (SColor (e_mut red_env (with_text_color 255 0 0) st1))) = 255%Z)
    by (eexists; split; [exact El|subst sty; vm_compute; reflexivity]).
  clear El Esty. destruct K as (st1 & -> & Red).
  cbn [List.concat app] in T. inversion T as [|? o ? os Ht T']; subst. inversion T'; subst. clear T T'. cbn [fst snd] in Ht. destruct Ht as (page & outs & -> & W).
  cbn [List.concat app] in Hq. rewrite app_nil_r in Hq. apply in_concat in Hq as (o & Ho & Hq).
  assert (Own : Forall (fun p => fst p = e_mut red_env (with_text_color 255 0 0) st1) (flat_map (element_words red_env page st1) [IParagraph (with_text_color 255 0 0) ($"a")])).
  { cbn [flat_map]. rewrite app_nil_r. unfold element_words. cbn [instr_words]. set (ws := text_words page ($"a")). clearbody ws.
    destruct ws as [|w ws]; [destruct (beqb _ _); repeat constructor|]. apply Forall_forall. intros p Hp. change (In p (map (fun w => (e_mut red_env (with_text_color 255 0 0) st1, w)) (w :: ws))) in Hp. apply in_map_iff in Hp as (x & <- & _). reflexivity. }
  set (ps := flat_map _ _) in Own, W. clearbody ps. induction W as [|p o' ps outs Hw W IH]; [destruct Ho|]. inversion Own as [|? ? O1 O2]; subst.
  destruct Ho as [-> |Ho]; [|exact (IH Ho O2)]. destruct Hw as [Hw _]. rewrite Forall_forall in Hw. specialize (Hw q Hq). unfold is_black in Hb. rewrite Hw, O1 in Hb. cbn [fst pen_color] in Hb. unfold own_colour in Hb. rewrite Red in Hb. discriminate Hb.
Qed.
