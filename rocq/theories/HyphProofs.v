(** Assembly of the hyphenation theorems. *)
From Coq Require Import Sorting.Sorted.
From Verif Require Import GoStr GoStrFacts Utf8 Utf8Facts HyphPattern Hyph HyphSpec HyphView HyphFacts HyphFacts2
  HyphPatternFacts HyphEnUs HyphLatin HyphBuiltin HyphBuiltinFacts.

Lemma scope_dec s : in_scope s \/ ~ in_scope s.
Proof.
  unfold in_scope. destruct (in_dec ascii_dec sp s); [right; tauto|].
  destruct (le_dec 3 (List.length s)), (le_dec (List.length s) 100); try (right; lia). left; tauto.
Qed.

Lemma hyph_cases ed el data pl s : load ed data = Ok pl ->
  (in_scope s /\ exists cs, liang_cuts (pats pl) (lower_runes el s) cs /\ hyphenate el pl s = Some (pieces 0 s cs)) \/
  (~ in_scope s /\ hyphenate el pl s = Some [s]).
Proof.
  intros H. apply load_wf in H. destruct (scope_dec s) as [Hs|Hs].
  - left. split; [exact Hs|]. apply hyphenate_in; assumption.
  - right. split; [exact Hs|]. apply hyphenate_out, Hs.
Qed.

Lemma no_panic ed el data pl s : load ed data = Ok pl -> exists parts, hyphenate el pl s = Some parts.
Proof. intros H. destruct (hyph_cases ed el data pl s H) as [(_ & cs & _ & ->)|(_ & ->)]; eexists; reflexivity. Qed.

Lemma unloaded_panics : exists pl s, hyphenate (fun r => r) pl s = None.
Proof. exists [($"c", mkPattern [99%N] [1; 1; 1; 1])], ($"abc"). vm_compute. reflexivity. Qed.

Lemma lower_len el s : List.length (lower_runes el s) <= List.length s.
Proof. rewrite lower_runes_length. apply decode_length. Qed.

Lemma loses_at_most_last ed el data pl s parts : load ed data = Ok pl -> hyphenate el pl s = Some parts ->
  List.concat parts = s \/ List.concat parts = removelast s.
Proof.
  intros H Hp. destruct (hyph_cases ed el data pl s H) as [([Hs _] & cs & Hc & E)|(_ & E)];
    rewrite E in Hp; injection Hp as <-.
  - destruct (liang_concat _ _ cs s ltac:(lia) Hc (lower_len el s)) as [H1 H2].
    destruct (in_dec Nat.eq_dec (List.length s - 1) cs) as [Hi|Hi]; [right; apply H1, Hi|left; apply H2, Hi].
  - left. simpl. apply app_nil_r.
Qed.

Lemma removelast_neq (s : bytes) : s <> [] -> removelast s <> s.
Proof.
  intros H E. destruct (exists_last H) as (l & x & ->). rewrite removelast_last in E.
  apply (f_equal (@List.length _)) in E. rewrite app_length in E. simpl in E. lia.
Qed.

Lemma scoped_parts ed el data pl s parts cs : load ed data = Ok pl -> 3 <= List.length s <= 100 -> ~ In sp s ->
  liang_cuts (pats pl) (lower_runes el s) cs -> hyphenate el pl s = Some parts -> parts = pieces 0 s cs.
Proof.
  intros H Hl Hs Hc Hp. destruct (hyph_cases ed el data pl s H) as [(_ & cs' & Hc' & E)|(Hn & _)].
  - rewrite (liang_unique _ _ _ _ Hc Hc'). congruence.
  - exfalso. apply Hn. split; assumption.
Qed.

Lemma loss_iff ed el data pl s parts cs : load ed data = Ok pl -> 3 <= List.length s <= 100 -> ~ In sp s ->
  liang_cuts (pats pl) (lower_runes el s) cs -> hyphenate el pl s = Some parts ->
  (List.concat parts = removelast s <-> In (List.length s - 1) cs) /\
  (List.concat parts = s <-> ~ In (List.length s - 1) cs).
Proof.
  intros H Hl Hs Hc Hp. rewrite (scoped_parts _ _ _ _ _ _ _ H Hl Hs Hc Hp).
  destruct (liang_concat _ _ cs s ltac:(lia) Hc (lower_len el s)) as [H1 H2].
  assert (Hne : s <> []) by (intros ->; simpl in Hl; lia).
  pose proof (removelast_neq s Hne) as Hr.
  destruct (in_dec Nat.eq_dec (List.length s - 1) cs) as [Hi|Hi].
  - specialize (H1 Hi). rewrite H1. split; [tauto|]. split; [intros E; contradiction|contradiction].
  - specialize (H2 Hi). rewrite H2. split; [|tauto]. split; [intros E; symmetry in E; contradiction|contradiction].
Qed.

Lemma liang ed el data pl s : load ed data = Ok pl -> 3 <= List.length s <= 100 -> ~ In sp s ->
  exists cs, liang_cuts (pats pl) (lower_runes el s) cs /\ hyphenate el pl s = Some (pieces 0 s cs).
Proof. intros H Hl Hs. apply hyphenate_in; [eapply load_wf, H|split; assumption]. Qed.

Lemma two_bytes ed el data pl s parts : load ed data = Ok pl -> 3 <= List.length s <= 100 -> ~ In sp s ->
  hyphenate el pl s = Some parts -> Forall (fun p => 2 <= List.length p) parts.
Proof.
  intros H Hl Hs Hp. destruct (liang ed el data pl s H Hl Hs) as (cs & Hc & E). rewrite E in Hp. injection Hp as <-.
  pose proof (liang_range _ _ _ _ Hc (lower_len el s)) as Hr. destruct Hc as [Hss Hc].
  apply pieces_two.
  - constructor; [exact Hss|]. eapply Forall_impl; [|exact Hr]. simpl; intros; lia.
  - intros j k Hj Hk Hjk. apply Hc in Hk as (_ & _ & Hg). apply Hg; [|exact Hjk].
    destruct Hj as [<-|Hj]; [left; reflexivity|right; exact Hj].
  - eapply Forall_impl; [|exact Hr]. simpl; intros; lia.
Qed.

Lemma whole el pl s : List.length s < 3 \/ 100 < List.length s \/ In sp s -> hyphenate el pl s = Some [s].
Proof. intros H. apply hyphenate_out. unfold in_scope. intros [H1 H2]. destruct H as [H|[H|H]]; [lia|lia|contradiction]. Qed.

Lemma lossless_multibyte ed el data pl s parts : load ed data = Ok pl ->
  List.length (decode s) < List.length s -> hyphenate el pl s = Some parts -> List.concat parts = s.
Proof.
  intros H Hm Hp. destruct (hyph_cases ed el data pl s H) as [([Hl Hs] & cs & Hc & E)|(_ & E)].
  - apply (loss_iff _ _ _ _ _ _ _ H Hl Hs Hc Hp). intros Hi. destruct Hc as [_ Hc].
    apply Hc in Hi as (Hk & _). rewrite lower_runes_length in Hk. lia.
  - rewrite E in Hp. injection Hp as <-. simpl. apply app_nil_r.
Qed.

(** Run the built-in English hyphenator on [s] and test the parts. *)
Definition check_en_us (s : bytes) (test : list bytes -> bool) : bool :=
  match new_en_us (fun _ => false) with
  | None => false
  | Some pl => match hyphenate (fun r => r) pl s with Some parts => test parts | None => false end
  end.
Lemma check_en_us_ok s test : check_en_us s test = true ->
  exists pl parts, new_en_us (fun _ => false) = Some pl /\ hyphenate (fun r => r) pl s = Some parts /\ test parts = true.
Proof.
  unfold check_en_us. destruct (new_en_us (fun _ => false)) as [pl|]; [|discriminate].
  destruct (hyphenate (fun r => r) pl s) as [parts|] eqn:E; [|discriminate].
  intros H. exists pl, parts. auto.
Qed.

Lemma lossy : exists pl s parts, new_en_us (fun _ => false) = Some pl /\
  hyphenate (fun r => r) pl s = Some parts /\ List.concat parts <> s.
Proof.
  assert (E : check_en_us ($"applications") (fun ps => negb (beqb (List.concat ps) ($"applications"))) = true)
    by (vm_cast_no_check (eq_refl true)).
  apply check_en_us_ok in E as (pl & parts & H1 & H2 & H3). exists pl, ($"applications"), parts.
  split; [exact H1|]. split; [exact H2|]. intros E. rewrite E, beqb_refl in H3. discriminate.
Qed.

Lemma boundary_parts ed el data pl s parts cs : load ed data = Ok pl -> valid_utf8 s ->
  3 <= List.length s <= 100 -> ~ In sp s ->
  liang_cuts (pats pl) (lower_runes el s) cs -> Forall (rune_boundary s) cs ->
  hyphenate el pl s = Some parts -> Forall valid_utf8 parts.
Proof.
  intros H Hv Hl Hs Hc Hb Hp. rewrite (scoped_parts _ _ _ _ _ _ _ H Hl Hs Hc Hp).
  pose proof (liang_range _ _ _ _ Hc (lower_len el s)) as Hr. destruct Hc as [Hss _].
  apply pieces_valid; [|split; [exists []; split; [constructor|reflexivity]|exact Hv]|exact Hb].
  constructor; [exact Hss|]. eapply Forall_impl; [|exact Hr]. simpl; intros; lia.
Qed.
Lemma ascii_parts ed el data pl s parts : load ed data = Ok pl -> is_ascii s ->
  hyphenate el pl s = Some parts -> Forall valid_utf8 parts.
Proof.
  intros H Ha Hp. destruct (hyph_cases ed el data pl s H) as [([Hl Hs] & cs & Hc & E)|(_ & E)].
  - eapply boundary_parts; try eassumption; [apply ascii_valid, Ha|].
    apply Forall_forall. intros k _. apply ascii_boundary, Ha.
  - rewrite E in Hp. injection Hp as <-. constructor; [apply ascii_valid, Ha|constructor].
Qed.

(** Valid UTF-8 is what re-encodes to itself. *)
Lemma valid_utf8_iff s : valid_utf8 s <-> encode (decode s) = s.
Proof.
  split.
  - intros (rs & Hv & ->). rewrite decode_encode by exact Hv. reflexivity.
  - intros E. exists (decode s). split; [apply decode_valid|symmetry; exact E].
Qed.

Lemma splits_utf8 : exists pl s parts, new_en_us (fun _ => false) = Some pl /\ valid_utf8 s /\
  hyphenate (fun r => r) pl s = Some parts /\ exists p, In p parts /\ ~ valid_utf8 p.
Proof.
  set (s := $"r" ++ encode [233%N] ++ $"sum" ++ encode [233%N]).
  assert (E : check_en_us s (existsb (fun p => negb (beqb (encode (decode p)) p))) = true)
    by (vm_cast_no_check (eq_refl true)).
  apply check_en_us_ok in E as (pl & parts & H1 & H2 & H3). exists pl, s, parts. split; [exact H1|].
  split; [apply valid_utf8_iff; vm_compute; reflexivity|]. split; [exact H2|].
  apply existsb_exists in H3 as (p & Hp & Hb). exists p. split; [exact Hp|].
  intros Hv. apply valid_utf8_iff in Hv. rewrite Hv, beqb_refl in Hb. discriminate.
Qed.

Lemma case_insensitive ed el data pl s t : load ed data = Ok pl ->
  (forall r, (128 <= r)%N -> el r <> 32%N) ->
  List.length s = List.length t -> lower_runes el s = lower_runes el t ->
  exists ps pt, hyphenate el pl s = Some ps /\ hyphenate el pl t = Some pt /\
    map (@List.length _) ps = map (@List.length _) pt.
Proof. intros H. apply hyphenate_case. eapply load_wf, H. Qed.

Lemma load_rejects ed ls t : Forall no_lf ls -> no_lf t -> Forall short ls -> short t ->
  (exists e, load ed (text_of_lines ls t) = Err e) <-> exists l, In l (ls ++ [t]) /\ bad_line ed l.
Proof. intros. rewrite load_text by assumption. apply parse_lines_err. Qed.
Lemma load_last ed ls t pl : Forall no_lf ls -> no_lf t -> Forall short ls -> short t ->
  load ed (text_of_lines ls t) = Ok pl ->
  forall key p, find pl key = Some p <-> last_def ed (ls ++ [t]) key p.
Proof. intros H1 H2 H3 H4 H. rewrite load_text in H by assumption. apply parse_lines_find, H. Qed.

Definition long_line : bytes := repeat "x"%char (N.to_nat 65536).
Lemma load_truncates : exists ls t pl l p,
  Forall no_lf ls /\ no_lf t /\ load (fun _ => false) (text_of_lines ls t) = Ok pl /\
  In l (ls ++ [t]) /\ defines (fun _ => false) l p /\ find pl (encode (letters p)) = None.
Proof.
  exists [long_line], ($"a1b"), [], ($"a1b"), (mkPattern (map N_of_ascii ($"ab")) [0; 1; 0]).
  assert (Hn : no_lf long_line) by (intros Hi; apply repeat_spec in Hi; discriminate).
  assert (Hn2 : no_lf ($"a1b")) by (vm_compute; intros [H|[H|[H|[]]]]; discriminate).
  split; [constructor; [exact Hn|constructor]|]. split; [exact Hn2|]. split.
  - change (text_of_lines [long_line] ($"a1b")) with (text_of_lines [] ((long_line ++ [lf]) ++ ($"a1b"))).
    rewrite <- app_assoc. cbn [app]. rewrite load_long; [reflexivity|constructor|constructor|exact Hn|].
    unfold short, long_line. rewrite repeat_length, N2Nat.id. apply N.lt_irrefl.
  - split; [right; left; reflexivity|]. split; [split; [discriminate|vm_compute; reflexivity]|reflexivity].
Qed.
