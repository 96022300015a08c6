(** Dumped descriptions: the XML printed is read back. *)
From Coq Require Import ZArith Lia.
From Verif Require Import GoStr GoStrFacts Utf8 Utf8Facts Num Describe Dump DumpSpec.
Local Open Scope nat_scope.

(** ** Characters *)
Lemma legible_xml : forall r, legible_rune r = if xml_char r then r else rune_error.
Proof.
  intro r. unfold legible_rune, xml_char, between.
  replace (r <? 55296)%N with (r <=? 55295)%N by (destruct (N.leb_spec r 55295), (N.ltb_spec r 55296); lia).
  replace (r <? 65534)%N with (r <=? 65533)%N by (destruct (N.leb_spec r 65533), (N.ltb_spec r 65534); lia).
  replace (r <? 1114112)%N with (r <=? 1114111)%N by (destruct (N.leb_spec r 1114111), (N.ltb_spec r 1114112); lia).
  reflexivity.
Qed.
Lemma byte_eq : forall n c, (n < 256)%N -> byte n = c -> n = N_of_ascii c.
Proof. intros n c H <-. symmetry. apply N_byte. exact H. Qed.
Lemma encode_rune_bytes : forall r c, In c (encode_rune r) -> (N_of_ascii c < 128)%N -> N_of_ascii c = r.
Proof.
  intros r c Hin Hc. unfold encode_rune in Hin. destruct (valid_rune r) eqn:V.
  - apply valid_rune_bounds in V as [V _]. revert Hin.
    destruct (N.ltb_spec r 128) as [L|L].
    { intros [<-|[]]. apply N_byte. lia. }
    destruct (N.ltb_spec r 2048) as [L2|L2]; [|destruct (N.ltb_spec r 65536) as [L3|L3]]; intro Hin.
    all: exfalso; assert (forall b x k, (128 <= b)%N -> (x < k)%N -> (b + k <= 256)%N -> (N_of_ascii (byte (b + x)) < 128)%N -> False) as Hb by (intros b x k H1 H2 H3 Hl; rewrite N_byte in Hl; lia).
    all: pose proof (N.mod_lt r 64 ltac:(discriminate)); pose proof (N.mod_lt (r / 64) 64 ltac:(discriminate)); pose proof (N.mod_lt (r / 4096) 64 ltac:(discriminate)).
    + assert (r / 64 < 32)%N by (apply N.div_lt_upper_bound; lia).
      destruct Hin as [<-|[<-|[]]]; (eapply (Hb _ _ _); [| | |exact Hc]; [discriminate|eassumption|discriminate]).
    + assert (r / 4096 < 16)%N by (apply N.div_lt_upper_bound; lia).
      destruct Hin as [<-|[<-|[<-|[]]]]; (eapply (Hb _ _ _); [| | |exact Hc]; [discriminate|eassumption|discriminate]).
    + assert (r / 262144 < 5)%N by (apply N.div_lt_upper_bound; lia).
      destruct Hin as [<-|[<-|[<-|[<-|[]]]]]; (eapply (Hb _ _ _); [| | |exact Hc]; [discriminate|eassumption|discriminate]).
  - exfalso. vm_compute in Hin. destruct Hin as [<-|[<-|[<-|[]]]]; vm_compute in Hc; discriminate.
Qed.

Lemma resolve_other : forall c s, c <> "&"%char -> resolve_go 0 (c :: s) = c :: resolve_go 0 s.
Proof.
  intros c s H. cbn [resolve_go]. replace (find _ references) with (@None (bytes * ascii)); [reflexivity|].
  assert (A : Forall (fun e : bytes * ascii => exists t, fst e = "&"%char :: t) references) by (repeat constructor; eexists; reflexivity).
  symmetry. induction A as [|e l [t E] _ IH]; [reflexivity|]. cbn [find]. rewrite E. cbn [has_prefix].
  destruct (Ascii.eqb_spec "&"%char c); [congruence|exact IH].
Qed.
Lemma resolve_others : forall p s, ~ In "&"%char p -> resolve_go 0 (p ++ s) = p ++ resolve_go 0 s.
Proof.
  induction p as [|c p IH]; intros s H; [reflexivity|]. cbn [app]. rewrite resolve_other by (intro; subst; apply H; left; reflexivity).
  rewrite IH by (intro; apply H; right; assumption). reflexivity.
Qed.
Lemma resolve_escape_rune : forall r s, resolve_go 0 (escape_rune r ++ s) = encode_rune (legible_rune r) ++ resolve_go 0 s.
Proof.
  intros r s. rewrite legible_xml. unfold escape_rune.
  repeat match goal with |- context [(r =? ?k)%N] => destruct (N.eqb_spec r k) as [->|]; [reflexivity|] end.
  destruct (xml_char r).
  - apply resolve_others. intro H. apply encode_rune_bytes in H; [|reflexivity]. vm_compute in H. congruence.
  - apply resolve_others. intro H. vm_compute in H. firstorder discriminate.
Qed.
Lemma resolve_escape : forall s, resolve_refs (escape s) = legible s.
Proof.
  intro s. unfold resolve_refs, escape, legible. induction (decode s) as [|r l IH]; [reflexivity|].
  cbn [flat_map map encode]. rewrite resolve_escape_rune, IH. reflexivity.
Qed.
Lemma escape_no_tag : forall s, ~ In "<"%char (escape s).
Proof.
  intros s H. apply in_flat_map in H as (r & _ & H). revert H. unfold escape_rune.
  repeat match goal with |- context [(r =? ?k)%N] => destruct (N.eqb_spec r k) as [->|]; [vm_compute; intro H; repeat (destruct H as [H|H]; [discriminate H|]); exact H|] end.
  destruct (xml_char r).
  - intro H. apply encode_rune_bytes in H; [|reflexivity]. vm_compute in H. congruence.
  - vm_compute. intro H. repeat (destruct H as [H|H]; [discriminate H|]). exact H.
Qed.

(** ** Reading *)
Definition rd (acc s : bytes) (stk : list frame) : option tree := match lex false acc s with Some toks => nest toks stk | None => None end.
Lemma lex_text : forall p acc s, ~ In "<"%char p -> lex false acc (p ++ s) = lex false (rev p ++ acc) s.
Proof.
  induction p as [|c p IH]; intros acc s H; [reflexivity|]. cbn [app lex].
  destruct (Ascii.eqb_spec c "<"%char); [subst; exfalso; apply H; left; reflexivity|].
  rewrite IH by (intro; apply H; right; assumption). cbn [rev]. rewrite <- app_assoc. reflexivity.
Qed.
Lemma lex_tag : forall n acc s, ~ In ">"%char n -> lex true acc (n ++ ">"%char :: s) =
  option_map (cons (tag_of (rev acc ++ n))) (lex false [] s).
Proof.
  induction n as [|c n IH]; intros acc s H.
  - cbn [app lex]. rewrite Ascii.eqb_refl, app_nil_r. reflexivity.
  - cbn [app lex]. destruct (Ascii.eqb_spec c ">"%char); [subst; exfalso; apply H; left; reflexivity|].
    rewrite IH by (intro; apply H; right; assumption). cbn [rev]. rewrite <- app_assoc. reflexivity.
Qed.
(** Names of elements *)
Definition name_ok (n : bytes) : Prop := ~ In ">"%char n /\ forall m, n <> "/"%char :: m.
Lemma open_name : forall n, name_ok n -> tag_of n = Open n.
Proof.
  intros [|c n] [_ H]; [reflexivity|]. destruct (Ascii.eqb_spec c "/"%char) as [->|E]; [exfalso; eapply H; reflexivity|].
  destruct c as [[] [] [] [] [] [] [] []]; try reflexivity; exfalso; apply E; reflexivity.
Qed.
Lemma rd_open : forall p n s stk, ~ In "<"%char p -> name_ok n ->
  rd [] (p ++ open_tag n ++ s) stk =
  match stk with
  | [] => if blank (resolve_refs p) then rd [] s [(n, [], [])] else None
  | (m, t, ks) :: st => rd [] s ((n, [], []) :: (m, t ++ resolve_refs p, ks) :: st)
  end.
Proof.
  intros p n s stk Hp Hn. unfold rd. rewrite lex_text by exact Hp. unfold open_tag. rewrite <- !app_assoc. cbn -[resolve_refs blank tag_of nest].
  rewrite lex_tag by apply Hn. cbn [rev app]. rewrite open_name by exact Hn. rewrite app_nil_r, rev_involutive.
  destruct (lex false [] s) as [toks|]; cbn [option_map nest]; destruct stk as [|[[m t] ks] st]; try reflexivity.
  destruct (blank _); reflexivity.
Qed.
Lemma rd_close : forall p n s stk, ~ In "<"%char p -> ~ In ">"%char n ->
  rd [] (p ++ close_tag n ++ s) stk =
  match stk, lex false [] s with
  | (m, t, ks) :: st, Some toks => nest (Close n :: toks) ((m, t ++ resolve_refs p, ks) :: st)
  | [], Some toks => None
  | _, _ => None
  end.
Proof.
  intros p n s stk Hp Hn. unfold rd. rewrite lex_text by exact Hp. unfold close_tag. rewrite <- !app_assoc. cbn -[resolve_refs blank tag_of nest].
  rewrite lex_tag by exact Hn. cbn [rev app]. rewrite app_nil_r, rev_involutive.
  destruct (lex false [] s) as [toks|]; cbn [option_map]; destruct stk as [|[[m t] ks] st]; try reflexivity.
  cbn [nest]. destruct (blank _); reflexivity.
Qed.
Lemma beqb_same : forall n, beqb n n = true.
Proof. intro n. destruct (beqb_spec n n); congruence. Qed.

(** What the elements of a value are. *)
Fixpoint forest (n : bytes) (v : goval) {struct v} : list tree :=
  match v with
  | GNil | GMap => []
  | GText s => [Node n (legible s) []]
  | GSlice l => (fix all (l : list goval) := match l with [] => [] | x :: l' => forest n x ++ all l' end) l
  | GStruct fs => [Node n [] ((fix fields (fs : list (bytes * goval)) := match fs with [] => [] | (k, x) :: fs' => forest k x ++ fields fs' end) fs)]
  end.
Inductive named : goval -> Prop :=
| NText s : named (GText s)
| NNil : named GNil
| NMap : named GMap
| NSlice l : Forall named l -> named (GSlice l)
| NStruct fs : Forall (fun kx => name_ok (fst kx) /\ named (snd kx)) fs -> named (GStruct fs).

Lemma indent_no_tag : forall d, ~ In "<"%char (newline d).
Proof. intros d [H|H]; [discriminate|]. apply repeat_spec in H. discriminate. Qed.
Lemma indent_plain : forall d, resolve_refs (newline d) = newline d.
Proof.
  intro d. unfold resolve_refs. rewrite <- (app_nil_r (newline d)) at 1. rewrite resolve_others; [cbn [resolve_go]; apply app_nil_r|].
  intros [H|H]; [discriminate|]. apply repeat_spec in H. discriminate.
Qed.
Lemma indent_blank : forall d, blank (newline d) = true.
Proof.
  intro d. unfold blank. apply forallb_forall. intros c [<-|H]; [reflexivity|]. apply repeat_spec in H as ->. reflexivity.
Qed.
Lemma blank_app : forall a b, blank a = true -> blank b = true -> blank (a ++ b) = true.
Proof. intros a b H H'. unfold blank in *. rewrite forallb_app, H, H'. reflexivity. Qed.

Definition reads (out : bytes) (f : list tree) : Prop :=
  (f = [] <-> out = []) /\
  forall s m t ks st, blank t = true -> exists t', blank t' = true /\ (f = [] -> t' = t) /\
    rd [] (out ++ s) ((m, t, ks) :: st) = rd [] s ((m, t', rev f ++ ks) :: st).
Lemma reads_nil : reads [] [].
Proof. split; [tauto|]. intros s m t ks st H. exists t. auto. Qed.
Lemma reads_app : forall o f o' f', reads o f -> reads o' f' -> reads (o ++ o') (f ++ f').
Proof.
  intros o f o' f' [E H] [E' H']. split.
  - split; intro K; apply app_eq_nil in K as [-> ->]; [rewrite (proj1 E eq_refl), (proj1 E' eq_refl)|rewrite (proj2 E eq_refl), (proj2 E' eq_refl)]; reflexivity.
  - intros s m t ks st Ht. destruct (H (o' ++ s) m t ks st Ht) as (t1 & B1 & N1 & R1). destruct (H' s m t1 (rev f ++ ks) st B1) as (t2 & B2 & N2 & R2).
    exists t2. split; [exact B2|]. split.
    + intro K. apply app_eq_nil in K as [-> ->]. rewrite N2, N1; reflexivity.
    + rewrite <- app_assoc, R1, R2, rev_app_distr, <- app_assoc. reflexivity.
Qed.
Lemma reads_text : forall d n s, name_ok n -> reads (newline d ++ open_tag n ++ escape s ++ close_tag n) [Node n (legible s) []].
Proof.
  intros d n s Hn. split; [split; intro K; discriminate|]. intros r m t ks st Ht. exists (t ++ newline d).
  split; [apply blank_app; [exact Ht|apply indent_blank]|]. split; [discriminate|].
  rewrite <- !app_assoc. rewrite rd_open by (try apply indent_no_tag; exact Hn). rewrite rd_close by (try apply escape_no_tag; apply Hn).
  unfold rd. destruct (lex false [] r) as [toks|]; [|reflexivity].
  cbn [nest app]. rewrite beqb_same. cbn [close]. rewrite resolve_escape, indent_plain. reflexivity.
Qed.
Lemma reads_struct : forall d n inner f, name_ok n -> reads inner f ->
  reads (newline d ++ open_tag n ++ inner ++ match inner with [] => [] | _ => newline d end ++ close_tag n) [Node n [] f].
Proof.
  intros d n inner f Hn [E H]. split; [split; intro K; discriminate|]. intros r m t ks st Ht. exists (t ++ newline d).
  split; [apply blank_app; [exact Ht|apply indent_blank]|]. split; [discriminate|].
  rewrite <- !app_assoc. rewrite rd_open by (try apply indent_no_tag; exact Hn).
  destruct (H (match inner with [] => [] | _ => newline d end ++ close_tag n ++ r) n [] [] ((m, t ++ resolve_refs (newline d), ks) :: st) eq_refl) as (t' & B & N & R).
  etransitivity; [exact R|]. rewrite rd_close; [|destruct inner; [intros []|apply indent_no_tag]|apply Hn].
  unfold rd. destruct (lex false [] r) as [toks|]; [|reflexivity].
  cbn [nest app]. rewrite beqb_same. rewrite app_nil_r.
  match goal with |- context [close ?x] => assert (C : close x = Some (Node n [] f)) end.
  { unfold close. destruct f as [|k f].
    - rewrite (proj1 E eq_refl), N by reflexivity. reflexivity.
    - destruct (rev (k :: f)) as [|k' f'] eqn:Er; [apply (f_equal (@List.length tree)) in Er; rewrite rev_length in Er; discriminate|].
      rewrite <- Er, rev_involutive.
      rewrite blank_app; [reflexivity|exact B|]. destruct inner; [reflexivity|]. rewrite indent_plain. apply indent_blank. }
  rewrite C, indent_plain. reflexivity.
Qed.
Lemma marshal_reads : forall v d n out, name_ok n -> named v -> marshal_value d n v = Some out -> reads out (forest n v).
Proof.
  fix IH 1. intros v d n out Hn Hv E. destruct v as [s| | |l|fs]; cbn [marshal_value forest] in *.
  - injection E as <-. apply reads_text. exact Hn.
  - injection E as <-. apply reads_nil.
  - discriminate.
  - inversion Hv as [| | |l' Hl|]; subst. clear Hv. revert out E Hl. induction l as [|x l IHl]; intros out E Hl.
    + injection E as <-. apply reads_nil.
    + inversion Hl; subst. destruct (marshal_value d n x) as [a|] eqn:Ea; [|discriminate].
      match type of E with match ?m with _ => _ end = _ => destruct m as [b|] eqn:Eb; [|discriminate] end. injection E as <-.
      apply reads_app; [eapply IH; eassumption|apply IHl; [reflexivity|assumption]].
  - inversion Hv as [| | | |fs' Hf]; subst. clear Hv.
    match type of E with match ?m with _ => _ end = _ => destruct m as [inner|] eqn:Ei; [|discriminate] end. injection E as <-.
    apply reads_struct; [exact Hn|]. revert inner Ei Hf. induction fs as [|[k x] fs IHf]; intros inner Ei Hf.
    + injection Ei as <-. apply reads_nil.
    + inversion Hf as [|? ? [Hk Hx] Hf']; subst. cbn [fst snd] in *. destruct (marshal_value (S d) k x) as [a|] eqn:Ea; [|discriminate].
      match type of Ei with match ?m with _ => _ end = _ => destruct m as [b|] eqn:Eb; [|discriminate] end. injection Ei as <-.
      apply reads_app; [eapply IH; eassumption|apply IHf; [reflexivity|assumption]].
Qed.
