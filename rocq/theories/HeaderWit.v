(** Concrete documents for headers (C109). *)
From Coq Require Import QArith.
From Verif Require Import GoStr Num Style Class Instr Engine Lines LinesSpec LinesView Proc RefEngine ProcView ProcSpec ImageFacts ProcWit OutputSpec StyledSpec InsideSpec HeaderSpec.
Local Open Scope nat_scope.

(** The headers of a run. *)
Definition headers {F : Num} (evs : list (event F)) : list (list (event F)) :=
  flat_map (fun e => match e with Ev _ calls => flat_map (fun x : cb * list (event F) => match fst x with Header => [snd x] | Footer => [] end) calls end) evs.
Lemma headers_called : forall (F : Num) (evs : list (event F)) sub, In sub (headers evs) -> call_in evs Header sub.
Proof.
  intros F evs sub H. apply in_flat_map in H as ([c calls] & He & H). apply in_flat_map in H as ([[] sub'] & Hc & H); [|destruct H]. destruct H as [<- |[]]. exact (K_now _ _ _ _ _ He Hc).
Qed.
(** A header on two pages, between them a text in large letters. *)
Definition plain_header : list (instr NumQ) := [IText no_style [ITextBlock ($"h")]].
Definition large_env : Env NumQ := doc_env [] plain_header [] [IText (with_size 30%Q) [ITextBlock ($"a")]; IPageBreak].
Definition sizes (evs : list (event NumQ)) : list Q := map (fun q : pen NumQ * bytes => match pen_font (fst q) with Some f => Qred (PointSize f) | None => 0%Q end) (printed_words no_pen evs).
Lemma header_grows : exists (s' : PS NumQ RefEngine) sub1 sub2, process large_env 2 ref_start = Ok None s' /\
  call_in (ps_trace s') Header sub1 /\ call_in (ps_trace s') Header sub2 /\ ~ same_print sub1 sub2.
Proof.
  destruct (ok_none (process large_env 2 ref_start) (fun s => map sizes (headers (ps_trace s)) = [[12%Q]; [30%Q]])) as (s & H1 & H2); [vm_compute; reflexivity|].
  destruct (headers (ps_trace s)) as [|sub1 [|sub2 [|]]] eqn:E; try discriminate H2. injection H2 as S1 S2.
  exists s, sub1, sub2. split; [exact H1|]. split; [apply headers_called; rewrite E; left; reflexivity|]. split; [apply headers_called; rewrite E; right; left; reflexivity|].
  intros K. specialize (K no_pen no_pen). unfold sizes in S1, S2. rewrite K, S2 in S1. discriminate S1.
Qed.
(** A style that fixes the font. *)
Definition fixed_font : Styled NumQ := mkStyled [[([0; 0], VStr (F:=NumQ) ($"Arial")); ([0; 1], VFloat (F:=NumQ) 9%Q); ([0; 2], VStr ($"normal")); ([0; 3], VStr ($"bold")); ([0; 4], VStr ($"normal"))]] [].
Definition fixed_header : list (instr NumQ) := [IText fixed_font [ITextBlock ($"h i")]].
Definition fixed_env : Env NumQ := doc_env [] fixed_header [] [IText (with_size 30%Q) [ITextBlock ($"a")]; IPageBreak].
Lemma fixed_settled : forall i, In i fixed_header -> unnumbered i /\ settled fixed_env i.
Proof.
  intros i [<- |[]]. split.
  - intros j [<- |[]]. intros (a & b & E). apply (f_equal (@List.length _)) in E. rewrite !app_length in E. cbn in E. destruct a as [|? [|? a]]; cbn in E; Lia.lia.
  - split.
    + intros a b (f & ->) (g & ->). vm_compute. reflexivity.
    + intros a (f & ->). vm_compute. discriminate.
Qed.
Lemma fixed_twice : exists (s' : PS NumQ RefEngine) sub1 sub2, process fixed_env 2 ref_start = Ok None s' /\
  headers (ps_trace s') = [sub1; sub2] /\ map (fun q : pen NumQ * bytes => snd q) (printed_words no_pen sub2) = [$"h"; $"i"].
Proof.
  destruct (ok_none (process fixed_env 2 ref_start) (fun s => map (fun sub => map (fun q : pen NumQ * bytes => snd q) (printed_words no_pen sub)) (headers (ps_trace s)) = [[$"h"; $"i"]; [$"h"; $"i"]])) as (s & H1 & H2); [vm_compute; reflexivity|].
  destruct (headers (ps_trace s)) as [|sub1 [|sub2 [|]]] eqn:E; try discriminate H2. injection H2 as S1 S2. exists s, sub1, sub2. split; [exact H1|]. split; [exact E|exact S2].
Qed.
Lemma large_header : exists (env : Env NumQ) (s' : PS NumQ RefEngine) sub1 sub2, process env 2 ref_start = Ok None s' /\
  (forall i, In i (e_header env) -> unnumbered i) /\ call_in (ps_trace s') Header sub1 /\ call_in (ps_trace s') Header sub2 /\ ~ same_print sub1 sub2.
Proof.
  destruct header_grows as (s & sub1 & sub2 & H1 & H2 & H3 & H4). exists large_env, s, sub1, sub2. split; [exact H1|]. split; [|split; [exact H2|split; [exact H3|exact H4]]].
  intros i [<- |[]] j [<- |[]] (a & b & E). apply (f_equal (@List.length _)) in E. rewrite !app_length in E. cbn in E. Lia.lia.
Qed.
