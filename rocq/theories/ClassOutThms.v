(** Proofs about what loading prints. *)
From Coq Require Import Permutation Lia.
From Verif Require Import GoStr GoStrFacts Utf8 Utf8Facts Scan Num Style StyleSpec StyleFacts Class ClassSpec ClassView ClassFacts Instr Xml Load ClassOut ClassOutSpec.
From Verif Require Describe DescribeSpec DescribeProofs Dump DumpSpec DumpThms.
Local Open Scope nat_scope.

Section S.
Variable F : Type.
Variables parse_float convert_float : bytes -> option F.
Variable shuffle : nat -> rawmap -> rawmap.
Notation out_go := (decode_classes_out_go F parse_float convert_float shuffle).
Notation decode_mutator := (decode_mutator F parse_float convert_float).

Lemma go_same : forall fuel s pos cs, fst (out_go fuel s pos cs) = decode_classes_go F parse_float convert_float shuffle fuel s pos cs.
Proof.
  induction fuel as [|fuel IH]; intros s pos cs; [reflexivity|]. cbn [decode_classes_out_go decode_classes_go].
  repeat match goal with
  | |- fst (let '(_, _) := out_go ?f ?s ?p ?c in _) = _ => rewrite <- (IH s p c); destruct (out_go f s p c); reflexivity
  | |- fst (match ?x with _ => _ end) = _ => destruct x; try reflexivity
  end.
Qed.
Lemma out_same : forall s, fst (decode_classes_out F parse_float convert_float shuffle s) = decode_classes F parse_float convert_float shuffle s.
Proof. intro s. apply go_same. Qed.

Lemma out_unfold fuel pre rest cs :
  out_go (S fuel) (pre ++ rest) (List.length pre) cs =
  match index_byte "{"%char rest with
  | None => (COk cs, [])
  | Some i =>
    let head := firstn i rest in let after := skipn (S i) rest in
    match trim is_ws head with
    | [] => (CErr, [])
    | _ => match index_byte "}"%char after with
      | None => (CErr, [])
      | Some k => match decode_mutator (shuffle (List.length pre)) (firstn k after) with
        | None => (CErr, [])
        | Some m => match add_rule F (trim is_ws head) m cs with
          | None => (CErr, [])
          | Some cs' => let '(r, out) := out_go fuel (pre ++ rest) (List.length pre + (i + k + 2)) cs' in (r, rule_said F (trim is_ws head) cs ++ out)
          end end end end end.
Proof.
  cbn [decode_classes_out_go]. rewrite slice_drop.
  destruct (index_byte "{" rest) as [i|] eqn:Ei; [|reflexivity].
  apply index_split in Ei as (a & b & -> & Ha & <-).
  rewrite slice_take. rewrite slice_drop.
  rewrite firstn_app, Nat.sub_diag, firstn_all. cbn [firstn]. rewrite app_nil_r.
  replace (skipn (S (List.length a)) (a ++ "{"%char :: b)) with b
    by (rewrite skipn_app, skipn_all2 by lia; replace (S (List.length a) - List.length a) with 1 by lia; reflexivity).
  cbv zeta. destruct (trim is_ws a) as [|c t] eqn:Et; [reflexivity|].
  cbn [index_byte]. change (Ascii.eqb "{" "}") with false. cbv iota.
  destruct (index_byte "}" b) as [k|] eqn:Ek; [|reflexivity].
  apply index_split in Ek as (b1 & b2 & -> & Hb & <-).
  replace (slice (a ++ "{"%char :: b1 ++ "}"%char :: b2) (List.length a + 1) (S (List.length b1) + List.length a)) with (Some b1).
  2:{ symmetry. replace (a ++ "{"%char :: b1 ++ "}"%char :: b2) with ((a ++ ["{"%char]) ++ b1 ++ "}"%char :: b2)
        by (rewrite <- app_assoc; reflexivity).
      replace (List.length a + 1) with (List.length (a ++ ["{"%char])) by (rewrite app_length; reflexivity).
      replace (S (List.length b1) + List.length a) with (List.length (a ++ ["{"%char]) + List.length b1) by (rewrite app_length; cbn; lia).
      apply slice_mid. }
  rewrite firstn_app, Nat.sub_diag, firstn_all. cbn [firstn]. rewrite app_nil_r.
  destruct (decode_mutator (shuffle (List.length pre)) b1) as [m|]; [|reflexivity].
  destruct (add_rule F (c :: t) m cs) as [cs'|]; [|reflexivity].
  replace (List.length pre + (S (List.length b1) + List.length a + 1)) with (List.length pre + (List.length a + List.length b1 + 2)) by lia. reflexivity.
Qed.

Lemma said_sel name cs cls s : head_reads name cls (Some s) ->
  rule_said F (trim is_ws name) cs = match map_get cls cs with Some _ => announces (mkRule cls (Some s) []) | None => [] end.
Proof.
  intros (Hne & Hc & Hn & H). change ":"%char with colon in *. unfold rule_said. rewrite H.
  rewrite index_byte_app by exact Hn. destruct cls as [|x cls]; [congruence|]. cbn [List.length].
  replace (firstn (S (List.length cls)) ((x :: cls) ++ colon :: s)) with (x :: cls)
    by (change (S (List.length cls)) with (List.length (x :: cls)); rewrite firstn_app, Nat.sub_diag, firstn_all; cbn; rewrite app_nil_r; reflexivity).
  replace (skipn (S (S (List.length cls))) ((x :: cls) ++ colon :: s)) with s; [reflexivity|].
  change (S (List.length cls)) with (List.length (x :: cls)).
  rewrite skipn_app, skipn_all2 by lia. replace (S (List.length (x :: cls)) - List.length (x :: cls)) with 1 by lia. reflexivity.
Qed.
Lemma said_base name cs cls : head_reads name cls None -> rule_said F (trim is_ws name) cs = [].
Proof.
  intros (Hne & -> & H). unfold rule_said. destruct (index_byte colon (trim is_ws name)) as [[|i]|] eqn:E; try reflexivity.
  exfalso. apply index_split in E as (a & b & E & Ha & Hl). destruct H as [H|[t Ht]].
  - apply H. rewrite E. apply in_or_app. right. left. reflexivity.
  - rewrite Ht in E. destruct a as [|x a]; [discriminate|]. injection E as <- _. apply Ha. left. reflexivity.
Qed.
Lemma said_rule name m cs cs' cls sel b : head_reads name cls sel -> add_rule F (trim is_ws name) m cs = Some cs' ->
  rule_said F (trim is_ws name) cs = announces (mkRule cls sel b).
Proof.
  intros H E. destruct sel as [s|]; [|exact (said_base name cs cls H)].
  rewrite (add_rule_sel F name m cs cls s H) in E. rewrite (said_sel name cs cls s H). destruct (map_get cls cs); [reflexivity|discriminate E].
Qed.

Lemma go_out n : forall pre rest cs fuel, List.length rest < n -> List.length rest < fuel ->
  exists s1 s2 l, rest = s1 ++ s2 /\ sheet s1 l /\ snd (out_go fuel (pre ++ rest) (List.length pre) cs) = announced l /\
    ((exists cs', fst (out_go fuel (pre ++ rest) (List.length pre) cs) = COk cs') -> s2 = []).
Proof.
  induction n as [|n IH]; intros pre rest cs fuel Hn Hf; [lia|]. destruct fuel as [|fuel]; [lia|].
  assert (Hno : forall r, r = (CErr, []) -> exists s1 s2 l, rest = s1 ++ s2 /\ sheet s1 l /\ snd r = announced l /\ ((exists cs' : Classes F, fst r = COk cs') -> s2 = [])).
  { intros r ->. exists [], rest, []. split; [reflexivity|]. split; [constructor; intros []|]. split; [reflexivity|]. intros [cs' E]. discriminate E. }
  rewrite out_unfold. destruct (index_byte "{" rest) as [i|] eqn:Ei.
  2:{ exists rest, [], []. rewrite app_nil_r. split; [reflexivity|]. split; [constructor; apply index_byte_none, Ei|]. split; [reflexivity|]. reflexivity. }
  apply index_split in Ei as (a & b & -> & Ha & <-). cbv zeta.
  rewrite firstn_app, Nat.sub_diag, firstn_all. cbn [firstn]. rewrite app_nil_r.
  replace (skipn (S (List.length a)) (a ++ "{"%char :: b)) with b
    by (rewrite skipn_app, skipn_all2 by lia; replace (S (List.length a) - List.length a) with 1 by lia; reflexivity).
  destruct (trim is_ws a) as [|c t] eqn:Et; [exact (Hno _ eq_refl)|]. rewrite <- Et.
  destruct (index_byte "}" b) as [k|] eqn:Ek; [|exact (Hno _ eq_refl)].
  apply index_split in Ek as (b1 & b2 & -> & Hb & <-).
  rewrite firstn_app, Nat.sub_diag, firstn_all. cbn [firstn]. rewrite app_nil_r.
  destruct (decode_mutator (shuffle (List.length pre)) b1) as [m|] eqn:Em; [|exact (Hno _ eq_refl)].
  destruct (add_rule F (trim is_ws a) m cs) as [cs'|] eqn:Er; [|exact (Hno _ eq_refl)].
  destruct (head_reads_total a ltac:(congruence)) as (cls & sel & Hr). rewrite (said_rule a m cs cs' cls sel b1 Hr Er). clear Hno.
  replace (pre ++ a ++ "{"%char :: b1 ++ "}"%char :: b2) with ((pre ++ a ++ "{"%char :: b1 ++ ["}"%char]) ++ b2)
    by (rewrite <- !app_assoc; cbn; rewrite <- app_assoc; reflexivity).
  replace (List.length pre + (List.length a + List.length b1 + 2)) with (List.length (pre ++ a ++ "{"%char :: b1 ++ ["}"%char]))
    by (rewrite !app_length; cbn; rewrite app_length; cbn; lia).
  rewrite !app_length in Hn, Hf. cbn in Hn, Hf. rewrite !app_length in Hn, Hf. cbn in Hn, Hf.
  destruct (IH (pre ++ a ++ "{"%char :: b1 ++ ["}"%char]) b2 cs' fuel ltac:(lia) ltac:(lia)) as (s1 & s2 & l & -> & Hs & E & Hok).
  destruct (out_go fuel _ _ cs') as [r out]. cbn [fst snd] in *. exists (a ++ "{"%char :: b1 ++ "}"%char :: s1), s2, (mkRule cls sel b1 :: l).
  split; [rewrite <- app_assoc; cbn [app]; rewrite <- app_assoc; reflexivity|]. split; [constructor; assumption|]. split; [rewrite E; reflexivity|exact Hok].
Qed.

Lemma decode_says : forall s, exists s1 s2 l, no_controls s = s1 ++ s2 /\ sheet s1 l /\
  snd (decode_classes_out F parse_float convert_float shuffle s) = announced l /\
  ((exists cs, fst (decode_classes_out F parse_float convert_float shuffle s) = COk cs) -> s2 = []).
Proof. intro s. unfold decode_classes_out. rewrite blank_controls_eq. apply (go_out (S (List.length (no_controls s))) [] (no_controls s)); lia. Qed.
End S.

Lemma load_same : forall F parse_float convert_float order sheet_order toks, fst (load_out F parse_float convert_float order sheet_order toks) = load F parse_float convert_float order sheet_order toks.
Proof.
  intros. unfold load_out, load. destruct (decode_document _ _ _ _ _) as [doc d|d|]; try reflexivity. rewrite <- out_same. destruct (decode_classes_out _ _ _ _ _). reflexivity.
Qed.
Lemma load_says : forall F parse_float convert_float order sheet_order toks doc cs said,
  load_out F parse_float convert_float order sheet_order toks = (LOk F doc cs, said) ->
  load F parse_float convert_float order sheet_order toks = LOk F doc cs /\ exists l, sheet (no_controls (doc_style F doc)) l /\ said = announced l.
Proof.
  intros F parse_float convert_float order sheet_order toks doc cs said H. split; [rewrite <- load_same, H; reflexivity|].
  unfold load_out in H. destruct (decode_document _ _ _ _ _) as [doc' d|d|]; try discriminate H.
  destruct (decode_says F parse_float convert_float sheet_order (doc_style F doc')) as (s1 & s2 & l & E & Hs & Ho & Hok).
  destruct (decode_classes_out _ _ _ _ _) as [r out]. cbn [fst snd] in *. destruct r as [cs'| | |]; try discriminate H. injection H as -> -> <-.
  rewrite (Hok (ex_intro _ cs eq_refl)), app_nil_r in E. subst s1. exists l. split; [exact Hs|exact Ho].
Qed.

(** ** The command describe *)
Lemma plain_announced : forall l, Forall (fun r => r_sel r = None) l -> announced l = [].
Proof. induction 1 as [|r l H _ IH]; [reflexivity|]. unfold announced in *. cbn [map List.concat]. rewrite IH. unfold announces. rewrite H. reflexivity. Qed.
Import Describe DescribeSpec DescribeProofs Dump DumpSpec DumpThms.
Lemma command_says : forall (fmt : NumF64 -> bytes) parse_float convert_float order sheet_order toks doc cs said load mutated diffs args,
  (forall tp p l, Permutation (diffs tp p l) l) ->
  load_out NumF64 parse_float convert_float order sheet_order toks = (LOk NumF64 doc cs, said) ->
  load (match args with [] => $"../../examples/grid.xml" | a :: _ => a end) = (inl doc, said) ->
  exists l xml, sheet (no_controls (doc_style NumF64 doc)) l /\
    describe_main NumF64 fmt load f64_finite mutated diffs args = (0, announced l ++ xml) /\
    read_xml xml = Some (description_tree fmt (describe NumF64 f64_finite (mutated doc) diffs doc)) /\
    (Forall (fun r => r_sel r = None) l -> announced l = []).
Proof.
  intros fmt parse_float convert_float order sheet_order toks doc cs said load mutated diffs args Ho Hl Hf.
  destruct (load_says _ _ _ _ _ _ _ _ _ Hl) as (_ & l & Hs & ->). assert (H := main_prints fmt load mutated diffs args Ho). cbv zeta in H. rewrite Hf in H. cbn [fst snd] in H.
  destruct (describe_main _ _ _ _ _ _ _) as [code printed]. destruct H as (xml & -> & -> & H). exists l, xml. split; [exact Hs|]. split; [reflexivity|]. split; [exact H|]. apply plain_announced.
Qed.
Lemma lex_text : forall s acc toks, lex false acc s = Some toks -> exists t toks', toks = Data t :: toks' /\ exists acc', t = resolve_refs (rev acc') /\ exists x, acc' = x ++ acc.
Proof.
  induction s as [|c s IH]; intros acc toks H; cbn [lex] in H.
  - injection H as <-. repeat eexists. instantiate (1 := []). reflexivity.
  - destruct (Ascii.eqb c "<").
    + destruct (lex true [] s) as [r|]; [|discriminate H]. injection H as <-. repeat eexists. instantiate (1 := []). reflexivity.
    + apply IH in H. destruct H as (t & toks' & -> & acc' & -> & x & ->). repeat eexists. instantiate (1 := x ++ [c]). rewrite <- app_assoc. reflexivity.
Qed.
Lemma letter_first : forall s, read_xml ("a"%char :: s) = None.
Proof.
  intro s. unfold read_xml. cbn [lex]. change (Ascii.eqb "a" "<") with false. cbv iota. destruct (lex false ["a"%char] s) as [toks|] eqn:E; [|reflexivity].
  apply lex_text in E. destruct E as (t & toks' & -> & acc' & -> & x & ->). rewrite rev_app_distr. cbn [rev app nest].
  replace (blank (resolve_refs ("a"%char :: rev x))) with false; [reflexivity|]. unfold resolve_refs. cbn [resolve_go].
  replace (find (fun e : bytes * ascii => has_prefix (fst e) ("a"%char :: rev x)) references) with (@None (bytes * ascii)) by reflexivity. reflexivity.
Qed.
From Verif Require Import LoadWit.
Lemma selector_spoils : exists kids doc cs said,
  load_out NumQ sample_q sample_q (fun _ _ _ l => l) (fun _ l => l) (root kids) = (LOk NumQ doc cs, said) /\
  forall fmt load finite mutated order args, load (match args with [] => $"../../examples/grid.xml" | a :: _ => a end) = (inl doc, said) ->
  let '(code, printed) := describe_main NumQ fmt load finite mutated order args in code = 0 /\ read_xml printed = None.
Proof.
  exists [el "style" [] [ch "p{width:3} p:first{width:4}"]]. do 3 eexists. split; [vm_compute; reflexivity|].
  intros fmt load finite mutated order args H. unfold describe_main. destruct args as [|a args]; cbv beta iota in *; rewrite H; (split; [reflexivity|]); apply letter_first.
Qed.
