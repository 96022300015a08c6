(** Descriptions dumped as JSON: reading what was marshalled. *)
From Coq Require Import ZArith Lia.
From Verif Require Import GoStr GoStrFacts Utf8 Utf8Facts Num Style Class Instr Load Describe Dump DumpSpec DumpFacts Json JsonSpec.
Local Open Scope nat_scope.

(** ** Strings *)
Lemma lex_plain : forall p acc rest, (forall c, In c p -> Ascii.eqb c """"%char = false /\ Ascii.eqb c "\"%char = false /\ (N_of_ascii c <? 32)%N = false) ->
  jlex (InText acc) (p ++ rest) = jlex (InText (rev p ++ acc)) rest.
Proof.
  induction p as [|c p IH]; intros acc rest H; [reflexivity|]. cbn [app jlex rev]. destruct (H c (or_introl eq_refl)) as (-> & -> & ->).
  rewrite IH by (intros c' Hc'; apply H; right; exact Hc'). rewrite <- app_assoc. reflexivity.
Qed.
Lemma small_in : forall r, (r < 32)%N -> In r (map N.of_nat (seq 0 32)).
Proof. intros r H. apply in_map_iff. exists (N.to_nat r). split; [apply N2Nat.id|]. apply in_seq. lia. Qed.
Lemma lex_rune : forall r acc rest, jlex (InText acc) (json_rune r ++ rest) = jlex (InText (rev (encode_rune r) ++ acc)) rest.
Proof.
  intros r acc rest. unfold json_rune.
  destruct (r =? 34)%N eqn:E1; [apply N.eqb_eq in E1; subst r; reflexivity|]. destruct (r =? 92)%N eqn:E2; [apply N.eqb_eq in E2; subst r; reflexivity|].
  destruct (r =? 10)%N eqn:E3; [apply N.eqb_eq in E3; subst r; reflexivity|]. destruct (r =? 13)%N eqn:E4; [apply N.eqb_eq in E4; subst r; reflexivity|].
  destruct (r =? 9)%N eqn:E5; [apply N.eqb_eq in E5; subst r; reflexivity|].
  destruct ((r <? 32) || (r =? 60) || (r =? 62) || (r =? 38))%N eqn:E6.
  { rewrite !orb_true_iff in E6. destruct E6 as [[[E6|E6]|E6]|E6]; try (apply N.eqb_eq in E6; subst r; reflexivity).
    apply N.ltb_lt, small_in in E6. clear - E6. cbn in E6. repeat (destruct E6 as [<-|E6]; [reflexivity|]). destruct E6. }
  destruct ((r =? 8232) || (r =? 8233))%N eqn:E7.
  { rewrite orb_true_iff in E7. destruct E7 as [E7|E7]; apply N.eqb_eq in E7; subst r; reflexivity. }
  apply lex_plain. intros c Hc. rewrite !orb_false_iff in E6. destruct E6 as [[[E6 _] _] _].
  assert (K : forall d, (N_of_ascii d < 128)%N -> N_of_ascii d <> r -> Ascii.eqb c d = false).
  { intros d Hd Hn. apply Ascii.eqb_neq. intros ->. exact (Hn (encode_rune_bytes r d Hc Hd)). }
  apply N.eqb_neq in E1, E2. apply N.ltb_ge in E6. split; [apply K; [reflexivity|]; intro X; apply E1; rewrite <- X; reflexivity|].
  split; [apply K; [reflexivity|]; intro X; apply E2; rewrite <- X; reflexivity|]. apply N.ltb_ge. destruct (N.ltb_spec (N_of_ascii c) 128) as [L|L]; [|lia].
  rewrite (encode_rune_bytes r c Hc L). exact E6.
Qed.
Lemma lex_escape : forall s skip acc rest, jlex (InText acc) (json_escape skip s ++ rest) = jlex (InText (rev (encode (decode_go skip s)) ++ acc)) rest.
Proof.
  induction s as [|c s IH]; intros skip acc rest; [reflexivity|]. cbn [json_escape decode_go]. destruct skip as [|k]; [|apply IH].
  destruct (decode_first c s) as [r k] eqn:D. cbn [encode flat_map]. rewrite <- app_assoc, rev_app_distr, <- app_assoc.
  destruct ((r =? rune_error)%N && (k =? 0)) eqn:E.
  - apply andb_true_iff in E as [E _]. apply N.eqb_eq in E. subst r.
    change (jlex (InText acc) ((backslash :: $"ufffd") ++ json_escape k s ++ rest)) with (jlex (InText (rev (encode_rune rune_error) ++ acc)) (json_escape k s ++ rest)).
    rewrite IH. reflexivity.
  - rewrite lex_rune, IH. reflexivity.
Qed.
Lemma lex_string : forall s rest, jlex Out (json_string s ++ rest) = emit_tok (TText (repaired s)) (jlex Out rest).
Proof.
  intros s rest. unfold json_string. change ((quote :: json_escape 0 s ++ [quote]) ++ rest) with (quote :: (json_escape 0 s ++ [quote]) ++ rest). rewrite <- app_assoc.
  cbn [jlex]. change (outside quote) with (Some (InText [], @nil jtok)). cbn iota beta. rewrite lex_escape. cbn [app jlex].
  change (Ascii.eqb quote """"%char) with true. cbn iota. rewrite app_nil_r, rev_involutive. fold (decode s). unfold repaired.
  destruct (jlex Out rest); reflexivity.
Qed.

(** ** Tokens *)
Definition delim (rest : bytes) : Prop := match rest with [] => True | c :: _ => number_char c = false /\ letter c = false end.
Definition lexes (out : bytes) (ts : list jtok) : Prop := forall rest, delim rest -> jlex Out (out ++ rest) = option_map (app ts) (jlex Out rest).
Lemma map_app_twice : forall (a b : list jtok) r, option_map (app a) (option_map (app b) r) = option_map (app (a ++ b)) r.
Proof. intros a b [r|]; [cbn; rewrite app_assoc; reflexivity|reflexivity]. Qed.
Lemma emit_map : forall t r, emit_tok t r = option_map (app [t]) r.
Proof. reflexivity. Qed.
Lemma map_app_nil : forall r : option (list jtok), option_map (app []) r = r.
Proof. intros [r|]; reflexivity. Qed.
Lemma string_lexes : forall s, lexes (json_string s) [TText (repaired s)].
Proof. intros s rest _. apply lex_string. Qed.
Lemma null_lexes : lexes ($"null") [TNull].
Proof.
  intros rest H. destruct rest as [|c rest]; [reflexivity|]. destruct H as [_ H].
  change (jlex Out ($"null" ++ c :: rest)) with (option_map (app []) (jlex (InWord (rev ($"null"))) (c :: rest))). rewrite map_app_nil.
  cbn [jlex]. rewrite H. reflexivity.
Qed.
Lemma number_lexes : forall s, number_literal s -> lexes s [TNumber s].
Proof.
  intros [|c s] H rest Hd; [destruct H|]. destruct H as [H1 H2].
  assert (O : outside c = Some (InNumber [c], [])).
  { assert (K : In c ($"-0123456789")). { unfold number_start, char_in in H1. apply existsb_exists in H1 as (d & Hd1 & E). apply Ascii.eqb_eq in E. subst d. exact Hd1. }
    clear - K. cbn in K. repeat (destruct K as [<-|K]; [reflexivity|]). destruct K. }
  assert (K : forall s acc, Forall (fun c => number_char c = true) s -> jlex (InNumber acc) (s ++ rest) = emit_tok (TNumber (rev acc ++ s)) (jlex Out rest)).
  { clear - Hd. induction s as [|c s IH]; intros acc H; inversion H; subst.
    - cbn [app]. rewrite app_nil_r. destruct rest as [|c rest]; [reflexivity|]. destruct Hd as [Hd _]. cbn [jlex]. rewrite Hd. reflexivity.
    - cbn [app jlex]. rewrite H2. rewrite IH by assumption. cbn [rev]. rewrite <- app_assoc. reflexivity. }
  cbn [app jlex]. rewrite O. cbn iota beta. rewrite K by exact H2. rewrite map_app_nil. reflexivity.
Qed.
Lemma newline_lexes : forall d rest, jlex Out (newline d ++ rest) = jlex Out rest.
Proof.
  intros d rest. unfold newline, indent. cbn [app jlex]. change (outside lf) with (Some (Out, @nil jtok)). cbn iota beta. rewrite map_app_nil.
  induction (2 * d) as [|n IH]; [reflexivity|]. cbn [repeat app jlex]. change (outside sp) with (Some (Out, @nil jtok)). cbn iota beta. rewrite map_app_nil. exact IH.
Qed.
Lemma punct_lexes : forall c, In c ($"[]{},:") -> lexes [c] [TPunct c].
Proof. intros c H rest _. cbn in H. repeat (destruct H as [<-|H]; [reflexivity|]). destruct H. Qed.
Fixpoint commas (l : list (list jtok)) : list jtok :=
  match l with [] => [] | [x] => x | x :: l' => x ++ TPunct ","%char :: commas l' end.
Lemma delim_newline : forall d rest, delim (newline d ++ rest).
Proof. intros d rest. split; reflexivity. Qed.
Lemma join_lexes : forall d parts ts, Forall2 lexes parts ts -> parts <> [] -> lexes (str_join (","%char :: newline d) parts) (commas ts).
Proof.
  intros d parts ts H. induction H as [|p t parts ts Hp Hr IH]; intros N; [congruence|]. destruct Hr as [|p' t' parts ts Hp' Hr'].
  - exact Hp.
  - intros rest Hd. change (str_join (","%char :: newline d) (p :: p' :: parts)) with (p ++ (","%char :: newline d) ++ str_join (","%char :: newline d) (p' :: parts)).
    change (commas (t :: t' :: ts)) with (t ++ TPunct ","%char :: commas (t' :: ts)). rewrite <- !app_assoc. rewrite Hp by (split; reflexivity).
    change ((","%char :: newline d) ++ ?r) with ([","%char] ++ newline d ++ r). rewrite (punct_lexes ","%char) by (cbn; tauto || apply delim_newline).
    rewrite newline_lexes, (IH ltac:(discriminate) rest Hd), !map_app_twice, <- app_assoc. reflexivity.
Qed.
Lemma bracket_lexes : forall o c d parts ts, In o ($"[{") -> In c ($"]}") -> Forall2 lexes parts ts -> lexes (bracket o c d parts) (TPunct o :: commas ts ++ [TPunct c]).
Proof.
  intros o c d parts ts Ho Hc H rest Hd.
  assert (Po : lexes [o] [TPunct o]) by (apply punct_lexes; cbn in *; tauto). assert (Pc : lexes [c] [TPunct c]) by (apply punct_lexes; cbn in *; tauto).
  destruct H as [|p t parts ts Hp Hr].
  - cbn [bracket commas app]. change (o :: c :: rest) with ([o] ++ [c] ++ rest). rewrite Po, Pc, map_app_twice; [reflexivity|exact Hd|]. destruct Hc as [<-|[<-|[]]]; split; reflexivity.
  - unfold bracket. set (j := str_join (","%char :: newline (S d)) (p :: parts)).
    replace ((o :: newline (S d) ++ j ++ newline d ++ [c]) ++ rest) with ([o] ++ newline (S d) ++ j ++ newline d ++ [c] ++ rest) by (cbn [app]; rewrite <- !app_assoc; reflexivity).
    rewrite Po by apply delim_newline. rewrite newline_lexes. unfold j. rewrite (join_lexes (S d) (p :: parts) (t :: ts) ltac:(constructor; assumption) ltac:(discriminate)) by apply delim_newline.
    rewrite newline_lexes, (Pc rest Hd), !map_app_twice. reflexivity.
Qed.

(** ** Trees *)
Section Nest.
Fixpoint toks_of (j : json) : list jtok :=
  match j with
  | JNull => [TNull]
  | JText s => [TText s]
  | JNumber n => [TNumber n]
  | JArray l => TPunct "["%char :: commas (map toks_of l) ++ [TPunct "]"%char]
  | JObject l => TPunct "{"%char :: commas (map (fun kx => TText (fst kx) :: TPunct ":"%char :: toks_of (snd kx)) l) ++ [TPunct "}"%char]
  end.
Lemma json_ind' : forall P : json -> Prop, P JNull -> (forall s, P (JText s)) -> (forall n, P (JNumber n)) -> (forall l, Forall P l -> P (JArray l)) ->
  (forall l, Forall (fun kx => P (snd kx)) l -> P (JObject l)) -> forall j, P j.
Proof.
  intros P H1 H2 H3 H4 H5. fix IH 1. intros [|s|n|l|l]; [exact H1|apply H2|apply H3| |].
  - apply H4. induction l; constructor; [apply IH|assumption].
  - apply H5. induction l as [|[k x] l IHl]; constructor; [apply IH|assumption].
Qed.
Lemma nest_value : forall j toks stack, jnest (toks_of j ++ toks) Value stack = jnest toks (After j) stack.
Proof.
  apply (json_ind' (fun j => forall toks stack, jnest (toks_of j ++ toks) Value stack = jnest toks (After j) stack)); try reflexivity.
  - intros l H toks stack. cbn [toks_of app jnest atom punct]. cbn [Ascii.eqb Bool.eqb]. rewrite <- app_assoc. cbn [app].
    destruct l as [|x l]; [reflexivity|].
    assert (K : forall l acc x, Forall (fun j => forall toks stack, jnest (toks_of j ++ toks) Value stack = jnest toks (After j) stack) (x :: l) ->
      jnest (commas (map toks_of (x :: l)) ++ TPunct "]"%char :: toks) Value (FArray acc :: stack) = jnest toks (After (JArray (rev acc ++ x :: l))) stack).
    { clear. induction l as [|y l IH]; intros acc x H; inversion H as [|? ? Hx Hl]; subst.
      - cbn [map commas]. rewrite Hx. cbn [jnest punct]. cbn [Ascii.eqb Bool.eqb]. cbn [rev]. reflexivity.
      - change (commas (map toks_of (x :: y :: l))) with (toks_of x ++ TPunct ","%char :: commas (map toks_of (y :: l))). rewrite <- app_assoc, Hx. cbn [app jnest punct]. cbn [Ascii.eqb Bool.eqb].
        rewrite (IH (x :: acc) y Hl). cbn [rev]. rewrite <- app_assoc. reflexivity. }
    specialize (K l [] x H). cbn [rev app] in K. rewrite <- K. clear.
    (* the first token does not end the array *)
    assert (E : forall y r, jnest (toks_of y ++ r) Value_or_end (FArray [] :: stack) = jnest (toks_of y ++ r) Value (FArray [] :: stack)) by (intros [] r; reflexivity).
    destruct l as [|y l]; [apply E|]. change (commas (map toks_of (x :: y :: l))) with (toks_of x ++ TPunct ","%char :: commas (map toks_of (y :: l))). rewrite <- app_assoc. apply E.
  - intros l H toks stack. cbn [toks_of app jnest atom punct]. cbn [Ascii.eqb Bool.eqb]. rewrite <- app_assoc. cbn [app].
    destruct l as [|[k x] l]; [reflexivity|]. set (member := fun kx : bytes * json => TText (fst kx) :: TPunct ":"%char :: toks_of (snd kx)).
    assert (K : forall l acc k x, Forall (fun kx => forall toks stack, jnest (toks_of (snd kx) ++ toks) Value stack = jnest toks (After (snd kx)) stack) ((k, x) :: l) ->
      jnest (commas (map member ((k, x) :: l)) ++ TPunct "}"%char :: toks) (Key acc) stack = jnest toks (After (JObject (rev acc ++ (k, x) :: l))) stack).
    { clear. induction l as [|[k' y] l IH]; intros acc k x H; inversion H as [|? ? Hx Hl]; subst; cbn [snd] in Hx.
      - cbn [map commas member fst snd app jnest punct]. cbn [Ascii.eqb Bool.eqb]. rewrite Hx. cbn [jnest punct]. cbn [Ascii.eqb Bool.eqb]. cbn [rev]. reflexivity.
      - change (commas (map member ((k, x) :: (k', y) :: l))) with (TText k :: TPunct ":"%char :: toks_of x ++ TPunct ","%char :: commas (map member ((k', y) :: l))).
        cbn [app jnest punct]. cbn [Ascii.eqb Bool.eqb]. rewrite <- app_assoc, Hx. cbn [app jnest punct]. cbn [Ascii.eqb Bool.eqb].
        rewrite (IH ((k, x) :: acc) k' y Hl). cbn [rev]. rewrite <- app_assoc. reflexivity. }
    specialize (K l [] k x H). cbn [rev app] in K. rewrite <- K. clear. destruct l as [|y l]; reflexivity.
Qed.
End Nest.
Lemma read_toks : forall out j, lexes out (toks_of j) -> forall s, jlex Out s = Some [] -> delim s -> read_json (out ++ s) = Some j.
Proof. intros out j H s Hs Hd. unfold read_json. rewrite (H s Hd), Hs. cbn [option_map]. rewrite nest_value. reflexivity. Qed.
