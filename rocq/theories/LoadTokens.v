(** What is loaded successfully are the tokens of a document. *)
From Coq Require Import ZArith Lia.
From Verif Require Import GoStr GoStrFacts Num Style Class Instr Xml Load LoadSpec LoadDocSpec LoadFacts LoadInv LoadSim LoadTree LoadReads LoadDoc LoadRun.
Local Open Scope nat_scope.

(** The open elements after some tokens *)
Fixpoint run (c : list token) (s : list bytes) : option (list bytes) :=
  match c with
  | [] => Some s
  | TStart _ n _ :: c' => run c' (n :: s)
  | TEnd n :: c' => match s with m :: s' => if beqb m n then run c' s' else None | [] => None end
  | _ :: c' => run c' s
  end.
Lemma run_app : forall c1 c2 s, run (c1 ++ c2) s = match run c1 s with Some s' => run c2 s' | None => None end.
Proof.
  induction c1 as [|[] c1 IH]; intros c2 s; cbn [app run]; auto. destruct s as [|m s]; [reflexivity|]. destruct (beqb m name); auto.
Qed.
Lemma balanced : forall k c n s u, List.length c <= k -> run c (n :: s) = Some u -> List.length u <= List.length s ->
  exists kids c2, c = flats kids ++ TEnd n :: c2 /\ run c2 s = Some u.
Proof.
  induction k as [|k IH]; intros c n s u Hc R Hu.
  { destruct c; [|cbn in Hc; lia]. injection R as <-. cbn in Hu. lia. }
  destruct c as [|t c]; [injection R as <-; cbn in Hu; lia|]. cbn [List.length] in Hc.
  destruct t as [p m a|m|t|]; cbn [run] in R.
  - apply IH in R as (ks & c2 & E & R); [|lia|cbn; lia].
    assert (L : List.length c2 <= k) by (rewrite E, app_length in Hc; cbn in Hc; lia).
    apply IH in R as (kids & c3 & E' & R); [|exact L|exact Hu].
    exists (Elem p m a ks :: kids), c3. split; [|exact R]. rewrite E, E', flats_cons. cbn [flat app]. rewrite <- !app_assoc. reflexivity.
  - destruct (beqb n m) eqn:B; [|discriminate]. apply beqb_eq in B. subst m. exists [], c. split; [reflexivity|exact R].
  - apply IH in R as (kids & c2 & -> & R); [|lia|exact Hu]. exists (Chars t :: kids), c2. split; [reflexivity|exact R].
  - apply IH in R as (kids & c2 & -> & R); [|lia|exact Hu]. exists (Other :: kids), c2. split; [reflexivity|exact R].
Qed.

Definition somes (s : list (option bytes)) : list bytes := flat_map (fun x => match x with Some n => [n] | None => [] end) s.
Definition legit (d d' : decoder) : Prop := exists c, d_toks d = c ++ d_toks d' /\ run c (somes (d_stk d)) = Some (somes (d_stk d')).
Definition okay (d d' : decoder) : Prop := legit d d' \/ d_toks d' = [].
Lemma legit_refl : forall d, legit d d. Proof. intro d. exists []. split; reflexivity. Qed.
Lemma legit_trans : forall a b c, legit a b -> legit b c -> legit a c.
Proof. intros a b c (x & E1 & R1) (y & E2 & R2). exists (x ++ y). rewrite E1, E2, app_assoc, run_app, R1. auto. Qed.
Lemma okay_refl : forall d, okay d d. Proof. intro d. left. apply legit_refl. Qed.
Lemma okay_trans : forall a b c, okay a b -> okay b c -> okay a c.
Proof.
  intros a b c [H1|H1] [H2|H2]; unfold okay; auto.
  - left. eapply legit_trans; eassumption.
  - right. destruct H2 as (x & E & _). rewrite H1 in E. symmetry in E. apply app_eq_nil in E. tauto.
Qed.
Lemma next_okay : forall d, okay d (snd (next d)).
Proof.
  intros [t s]. unfold next. cbn [d_toks d_stk].
  destruct s as [|[m|] s]; [| |apply okay_refl].
  - destruct t as [|[p n a|n|c|] t]; cbn [snd]; try apply okay_refl; try (right; reflexivity); left.
    + exists [TStart p n a]. split; reflexivity.
    + exists [TChar c]. split; reflexivity.
    + exists [TOther]. split; reflexivity.
  - destruct t as [|[p n a|n|c|] t]; cbn [snd]; try apply okay_refl; try (left; first [exists [TStart p n a]|exists [TChar c]|exists [TOther]]; split; reflexivity).
    destruct (beqb m n) eqn:B; [|right; reflexivity]. left. exists [TEnd n]. split; [reflexivity|]. cbn. rewrite B. reflexivity.
Qed.
Lemma next_legit : forall d t d', next d = (Some t, d') -> legit d d'.
Proof.
  intros [ts s] t d'. unfold next. cbn [d_toks d_stk].
  destruct s as [|[m|] s]; [| |discriminate].
  - destruct ts as [|[p n a|n|c|] ts]; intro E; try discriminate; injection E as <- <-.
    + exists [TStart p n a]. split; reflexivity.
    + exists [TChar c]. split; reflexivity.
    + exists [TOther]. split; reflexivity.
  - destruct ts as [|[p n a|n|c|] ts]; try discriminate; try (intro E; injection E as <- <-; first [exists [TStart p n a]|exists [TChar c]|exists [TOther]]; split; reflexivity).
    destruct (beqb m n) eqn:B; [|discriminate]. intro E. injection E as <- <-. exists [TEnd n]. split; [reflexivity|]. cbn. rewrite B. reflexivity.
Qed.
Lemma somes_push : forall s, somes (push_eof s) = somes s.
Proof. induction s as [|[n|] s IH]; cbn in *; auto. Qed.
Lemma somes_pop : forall s, somes (snd (pop_eof s)) = somes s.
Proof. intros [|[n|] s]; reflexivity. Qed.
Lemma iface_okay : forall {A} (f : decoder -> res A), keeps okay f -> keeps okay (unmarshal_interface f).
Proof.
  intros A f H d. unfold unmarshal_interface. specialize (H (mkDec (d_toks d) (push_eof (d_stk d)))).
  assert (G : forall d', okay (mkDec (d_toks d) (push_eof (d_stk d))) d' -> okay d (mkDec (d_toks d') (snd (pop_eof (d_stk d'))))).
  { intros d' [(c & E & R)|E]; [left|right; exact E]. exists c. cbn in *. rewrite somes_push in R. rewrite somes_pop. auto. }
  destruct (f _) as [x d'|d'|]; unfold ends in *; cbn [dec_of] in *; auto.
  specialize (G d' H). destruct (pop_eof (d_stk d')) as [[] s]; exact G.
Qed.
#[local] Hint Resolve okay_refl okay_trans next_okay : keeps.

Lemma fields_got : forall {A} (field : nat -> bytes -> attrs -> A -> option (decoder -> res A)) chars,
  (forall pos n a acc f, field pos n a acc = Some f -> keeps okay f) ->
  forall fuel acc d x d', fields_loop field chars fuel acc d = Got x d' ->
  exists d1 n, okay d d1 /\ next d1 = (Some (TEnd n), d').
Proof.
  intros A field chars Hf. induction fuel as [|f IH]; intros acc d x d' H; cbn [fields_loop] in H; [discriminate|].
  pose proof (next_okay d) as E. destruct (next d) as [[[pos n a|n|t|]|] d2] eqn:N; cbn [snd] in E; try discriminate.
  - destruct (field pos n a acc) as [g|] eqn:G.
    + specialize (Hf _ _ _ _ _ G d2). destruct (g d2) as [y d3|d3|]; try discriminate. cbn in Hf.
      apply IH in H as (d1 & m & H1 & H2). exists d1, m. split; [|exact H2]. eauto using okay_trans.
    + pose proof (skip_keeps okay okay_trans next_okay d2) as Hs. destruct (skip d2) as [y d3|d3|]; try discriminate. cbn in Hs.
      apply IH in H as (d1 & m & H1 & H2). exists d1, m. split; [|exact H2]. eauto using okay_trans.
  - injection H as _ <-. exists d, n. split; [apply okay_refl|exact N].
  - apply IH in H as (d1 & m & H1 & H2). exists d1, m. split; [|exact H2]. eauto using okay_trans.
  - apply IH in H as (d1 & m & H1 & H2). exists d1, m. split; [|exact H2]. eauto using okay_trans.
Qed.

Section Tokens.
Context {F : Num}.
Variables parse_float convert_float : bytes -> option F.
Variable order : nat -> bool -> nat -> rawmap -> rawmap.
Local Notation decode_instruction := (decode_instruction F parse_float convert_float order).
Local Notation section_field := (section_field F parse_float convert_float order).
Local Notation document_field := (document_field F parse_float convert_float order).
Lemma decode_okay : forall depth pos name a, keeps okay (decode_instruction depth pos name a).
Proof.
  induction depth as [|k IH]; intros pos name a d; cbn [Load.decode_instruction]; [exact I|].
  assert (Hd : forall pos n a d d', next d = (Some (TStart pos n a), d') -> ends (decode_instruction k pos n a d') (okay d)).
  { intros p n b d1 d2 N. pose proof (next_legit _ _ _ N) as L. specialize (IH p n b d2).
    destruct (decode_instruction k p n b d2); unfold ends in *; cbn in *; auto; eapply okay_trans; [left; exact L|exact IH|left; exact L|exact IH]. }
  unfold Load.decode_registered.
  repeat match goal with |- context [if beqb name ?s then _ else _] => destruct (beqb name s) end; try apply okay_refl;
    try (destruct (float_attr F parse_float _ a zero); [|apply okay_refl]); apply with_ends;
    try (apply styled_leaf_keeps; eauto with keeps); try (apply plain_leaf_keeps; eauto with keeps);
    apply iface_okay.
  all: first [apply unmarshal_instructions_keeps|apply table_keeps|apply row_keeps|apply cell_keeps|apply unmarshal_grid_keeps|apply gridrow_keeps|apply part_keeps]; eauto with keeps.
Qed.
Lemma section_okay : forall depth pos n a iss, keeps okay (section_field depth pos n a iss).
Proof.
  intros depth pos n a iss. unfold Load.section_field. apply iface_okay. intro d. destruct (decode_styled _ _ _ _ pos false a _); [|apply okay_refl].
  apply instructions_keeps; eauto with keeps. intros p m b d1 d2 N. pose proof (next_legit _ _ _ N) as L. pose proof (decode_okay depth p m b d2) as S.
  destruct (decode_instruction depth p m b d2); unfold ends in *; cbn in *; auto; eapply okay_trans; [left; exact L|exact S|left; exact L|exact S].
Qed.

(** ** Exactness of the fields *)
Lemma string_field_exact : forall A (set : bytes -> A), exact (string_field set). Proof. intros. apply map_exact, string_exact. Qed.
Lemma float_field_exact : forall A (set : F -> A), exact (float_field F parse_float set).
Proof.
  intros A set d n z x d' Hd R. unfold float_field in R. destruct (string_value d) as [v e|e|] eqn:E; try discriminate.
  destruct (float_value zero parse_float v); [|discriminate]. injection R as _ <-. eapply string_exact; eassumption.
Qed.
Lemma struct_exact : forall A (field : nat -> bytes -> attrs -> A -> option (decoder -> res A)), (forall pos n a acc f, field pos n a acc = Some f -> exact f) -> forall acc, exact (struct field acc).
Proof. intros A field Hf acc d. apply fields_exact; auto. Qed.
Ltac fld := repeat match goal with |- (if beqb ?n ?k then _ else _) = Some _ -> _ => destruct (beqb n k) end; try discriminate; let E := fresh in intro E; injection E as <-.
Lemma margins_exact : forall pos n a q f, margins_field F parse_float pos n a q = Some f -> exact f.
Proof. intros pos n a q f. unfold margins_field. fld; apply float_field_exact; auto. Qed.
Lemma meta_exact : forall pos n a q f, meta_field pos n a q = Some f -> exact f.
Proof. intros pos n a q f. unfold meta_field. fld; apply string_field_exact; auto. Qed.
Lemma page_exact : forall pos n a q f, page_field F parse_float pos n a q = Some f -> exact f.
Proof. intros pos n a q f. unfold page_field. fld; try apply string_field_exact. apply map_exact, struct_exact, margins_exact. Qed.

(** The document's fields are called with the element on top of the stack. *)
Lemma struct_document_exact : forall depth fuel acc d z x d', d_stk d = Some ($"document") :: z ->
  fields_loop (document_field depth) (fun _ acc => acc) fuel acc d = Got x d' -> d_stk d' = z.
Proof.
  intros depth fuel. induction fuel as [|f IH]; intros acc d z x d' Hd H; [discriminate|]. rewrite fields_S in H.
  destruct (next d) as [[[pos m a|m|t|]|] d2] eqn:N; try discriminate.
  - destruct (next_start _ _ _ _ _ N) as (_ & Hs & _). destruct (document_field depth pos m a acc) as [g|] eqn:G.
    + destruct (g d2) as [y d3|d3|] eqn:R; try discriminate.
      assert (E : d_stk d3 = d_stk d).
      { revert G. destruct acc as [M P S h ft b]. unfold Load.document_field.
        destruct (beqb m ($"meta")); [intro G; injection G as <-; eapply map_exact; [|exact Hs|exact R]; apply struct_exact, meta_exact|].
        destruct (beqb m ($"page")); [intro G; injection G as <-; eapply map_exact; [|exact Hs|exact R]; apply struct_exact, page_exact|].
        destruct (beqb m ($"style")); [intro G; injection G as <-; eapply string_field_exact; [exact Hs|exact R]|].
        assert (SEC : forall (mk : list (instr F) -> Document F) iss, In m [$"header"; $"footer"; $"body"; $"document"] -> map_res mk (section_field depth pos m a iss d2) = Got y d3 -> d_stk d3 = d_stk d).
        { intros mk iss Hm Rs. destruct (section_field depth pos m a iss d2) as [l e|e|] eqn:Q; try discriminate. injection Rs as _ <-.
          eapply section_exact; [apply not_known; exact Hm|exact Hs|exact Q]. }
        destruct (beqb m ($"header")) eqn:B1; [apply beqb_eq in B1; intro G; injection G as <-; eapply SEC; [subst m; cbn; auto|exact R]|].
        destruct (beqb m ($"footer")) eqn:B2; [apply beqb_eq in B2; intro G; injection G as <-; eapply SEC; [subst m; cbn; auto|exact R]|].
        destruct (beqb m ($"body")) eqn:B3; [apply beqb_eq in B3; intro G; injection G as <-; eapply SEC; [subst m; cbn; auto|exact R]|discriminate]. }
      rewrite Hd in E. eapply IH; [exact E|exact H].
    + destruct (skip d2) as [y d3|d3|] eqn:R; try discriminate. pose proof (skip_exact _ _ _ _ _ Hs R) as E. rewrite Hd in E. eapply IH; [exact E|exact H].
  - apply next_end in N as [N _]. rewrite Hd in N. injection N as _ N. injection H as _ <-. exact (eq_sym N).
  - apply next_char in N as [E _]. rewrite Hd in E. eapply IH; [exact E|exact H].
  - apply next_other in N as [E _]. rewrite Hd in E. eapply IH; [exact E|exact H].
Qed.

Lemma find_got : forall f toks n d', find_start f (mkDec toks []) = Got n d' ->
  d_stk d' = [Some n] /\ exists prolog p a, no_elements prolog /\ toks = flats prolog ++ TStart p n a :: d_toks d'.
Proof.
  induction f as [|f IH]; intros toks n d' H; [discriminate|]. cbn [find_start next d_toks d_stk] in H.
  destruct toks as [|[p m a|m|t|] toks]; try discriminate.
  - injection H as <- <-. split; [reflexivity|]. exists [], p, a. split; [intros ? ? ? ? []|reflexivity].
  - apply IH in H as (Hs & prolog & p & a & Hp & ->). split; [exact Hs|]. exists (Chars t :: prolog), p, a. split; [|reflexivity].
    intros p' n' a' ks' [E|Hin]; [discriminate|]. eapply Hp. exact Hin.
  - apply IH in H as (Hs & prolog & p & a & Hp & ->). split; [exact Hs|]. exists (Other :: prolog), p, a. split; [|reflexivity].
    intros p' n' a' ks' [E|Hin]; [discriminate|]. eapply Hp. exact Hin.
Qed.
Theorem decode_tokens : forall toks doc d', decode_document F parse_float convert_float order toks = Got doc d' -> exists kids, tokens_of toks kids.
Proof.
  intros toks doc d' H. unfold decode_document in H. set (D := enough _) in H.
  destruct (find_start D (mkDec toks [])) as [n d0|d0|] eqn:Fs; try discriminate. destruct (beqb n ($"document")) eqn:B; [|discriminate].
  apply beqb_eq in B. subst n. apply find_got in Fs as (Hs & prolog & p & a & Hp & E). unfold struct in H.
  pose proof (struct_document_exact _ _ _ _ _ _ _ Hs H) as X.
  apply fields_got in H as (d1 & n & Hok & N).
  2:{ apply document_keeps; eauto with keeps. intros. apply section_okay. }
  pose proof (next_end _ _ _ N) as [_ T]. destruct Hok as [L|L]; [|rewrite L in T; discriminate].
  pose proof (legit_trans _ _ _ L (next_legit _ _ _ N)) as (c & Ec & R). rewrite Hs, X in R. cbn in R.
  apply (balanced (List.length c)) in R as (kids & c2 & -> & _); [|lia|cbn; lia].
  exists kids, prolog, p, a, (c2 ++ d_toks d'). split; [exact Hp|]. rewrite E, Ec. cbn [flat]. change (flat_map flat kids) with (flats kids).
  f_equal. cbn [app]. rewrite <- !app_assoc. reflexivity.
Qed.
End Tokens.
