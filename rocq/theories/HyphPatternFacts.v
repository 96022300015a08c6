(** Proofs about pattern parsing and loading. *)
From Verif Require Import GoStr GoStrFacts GoFmt Utf8 Utf8Facts HyphPattern HyphSpec HyphView HyphFacts HyphFacts2.

Lemma ascii_digit_spec d : is_ascii_digit d = true <-> ascii_digit d.
Proof.
  unfold is_ascii_digit, ascii_digit. rewrite andb_true_iff, !N.leb_le. reflexivity.
Qed.

Section D.
Variable ext : N -> bool.
Notation dig := (unicode_digit ext).
Notation foreign := (foreign ext).
Notation bad_line := (bad_line ext).
Notation defines := (defines ext).
Notation last_def := (last_def ext).

Lemma dig_eq d : is_digit ext d = dig d.
Proof.
  unfold is_digit, unicode_digit, is_ascii_digit. destruct (N.ltb_spec d 256), (N.leb_spec 256 d), (N.leb_spec d 57); try lia;
    rewrite ?andb_true_r, ?andb_false_r, ?andb_true_l, ?andb_false_l, ?orb_false_r; reflexivity.
Qed.
Lemma ascii_digit_dig d : ascii_digit d -> dig d = true.
Proof. intros [H1 H2]. unfold unicode_digit. apply N.leb_le in H1, H2. rewrite H1, H2. reflexivity. Qed.
Lemma parse_digit_some d : ascii_digit d -> parse_digit d = Some (N.to_nat (d - 48)).
Proof. intros H. unfold parse_digit. apply ascii_digit_spec in H. rewrite H. reflexivity. Qed.
Lemma parse_digit_none d : ~ ascii_digit d -> parse_digit d = None.
Proof.
  intros H. unfold parse_digit. destruct (is_ascii_digit d) eqn:E; [|reflexivity].
  exfalso. apply H, ascii_digit_spec, E.
Qed.

Lemma groups_run rs gs : groups dig rs gs -> forall rest,
  parse_loop ext true [] [] (rs ++ rest) = parse_loop ext true (rev (map snd gs)) (rev (map fst gs)) rest.
Proof.
  induction 1 as [|r rs gs Hr _ IH|d r rs gs Hd _ IH]; intros rest; [reflexivity| |].
  - rewrite <- app_assoc, IH. cbn [app parse_loop]. rewrite dig_eq, Hr, !map_app, !rev_app_distr. reflexivity.
  - rewrite <- app_assoc, IH. cbn [app parse_loop]. rewrite dig_eq, (ascii_digit_dig d Hd), (parse_digit_some d Hd).
    rewrite !map_app, !rev_app_distr. reflexivity.
Qed.


Lemma groups_cases rs :
  (exists gs, groups dig rs gs) \/
  (exists p d gs, rs = p ++ [d] /\ groups dig p gs /\ ascii_digit d) \/
  foreign rs.
Proof.
  induction rs as [|r rs IH] using rev_ind; [left; exists []; constructor|].
  destruct IH as [(gs & Hg)|[(p & d & gs & -> & Hg & Hd)|(p & d & rest & gs & -> & Hg & Hd & Hn)]].
  - destruct (dig r) eqn:E.
    + assert (Had : ascii_digit r \/ ~ ascii_digit r) by (unfold ascii_digit; lia).
      destruct Had as [Had|Had].
      * right; left. exists rs, r, gs. auto.
      * right; right. exists rs, r, [], gs. auto.
    + left. exists (gs ++ [(0, r)]). constructor; assumption.
  - left. exists (gs ++ [(N.to_nat (d - 48), r)]). rewrite <- app_assoc. constructor; assumption.
  - right; right. exists p, d, (rest ++ [r]), gs. rewrite <- app_assoc. auto.
Qed.

Lemma run_a s gs : groups dig (decode s) gs ->
  parse_pattern ext s = Ok (mkPattern (map snd gs) (map fst gs ++ [0])).
Proof.
  intros Hg. unfold parse_pattern. rewrite <- (app_nil_r (decode s)), (groups_run _ _ Hg).
  cbn [parse_loop]. rewrite rev_length, map_length. cbn [List.length]. rewrite rev_length, map_length, Nat.eqb_refl.
  rewrite rev_involutive. cbn [rev]. rewrite rev_involutive. reflexivity.
Qed.
Lemma run_b s p d gs : decode s = p ++ [d] -> groups dig p gs -> ascii_digit d ->
  parse_pattern ext s = Ok (mkPattern (map snd gs) (map fst gs ++ [N.to_nat (d - 48)])).
Proof.
  intros -> Hg Hd || intros Hs Hg Hd. unfold parse_pattern. rewrite Hs, (groups_run _ _ Hg).
  cbn [parse_loop]. rewrite dig_eq, (ascii_digit_dig d Hd), (parse_digit_some d Hd). cbn [parse_loop].
  rewrite rev_length, map_length. cbn [List.length]. rewrite rev_length, map_length, Nat.eqb_refl.
  rewrite rev_involutive. cbn [rev]. rewrite rev_involutive. reflexivity.
Qed.
Lemma run_c s : foreign (decode s) -> parse_pattern ext s = Err ErrDigit.
Proof.
  intros (p & d & rest & gs & Hs & Hg & Hd & Hn). unfold parse_pattern. rewrite Hs, (groups_run _ _ Hg).
  cbn [parse_loop]. rewrite dig_eq, Hd, (parse_digit_none d Hn). reflexivity.
Qed.

Lemma parse_err_iff s : (exists e, parse_pattern ext s = Err e) <-> foreign (decode s).
Proof.
  split; [|intros H; exists ErrDigit; apply run_c, H].
  intros [e He]. destruct (groups_cases (decode s)) as [(gs & Hg)|[(p & d & gs & Hs & Hg & Hd)|Hf]]; [| |exact Hf].
  - rewrite (run_a s gs Hg) in He. discriminate.
  - rewrite (run_b s p d gs Hs Hg Hd) in He. discriminate.
Qed.
Lemma parse_no_length s : parse_pattern ext s <> Err ErrLength.
Proof.
  destruct (groups_cases (decode s)) as [(gs & Hg)|[(p & d & gs & Hs & Hg & Hd)|Hf]].
  - rewrite (run_a s gs Hg). discriminate.
  - rewrite (run_b s p d gs Hs Hg Hd). discriminate.
  - rewrite (run_c s Hf). discriminate.
Qed.

Lemma groups_letters rs gs : groups dig rs gs -> forall x, In x (map snd gs) -> In x rs.
Proof.
  induction 1 as [|r rs gs _ _ IH|d r rs gs _ _ IH]; intros x; [intros []| |];
    rewrite map_app, !in_app_iff; simpl; intros [H|[<-|[]]]; auto.
Qed.
Lemma groups_weights rs gs : groups dig rs gs -> Forall (fun w => w <= 9) (map fst gs).
Proof.
  induction 1 as [|r rs gs _ _ IH|d r rs gs Hd _ IH]; [constructor| |];
    rewrite map_app; apply Forall_app; split; try exact IH; (constructor; [|constructor]); simpl.
  - lia.
  - unfold ascii_digit in Hd. lia.
Qed.

Lemma parse_wf s p : parse_pattern ext s = Ok p ->
  List.length (weights p) = S (List.length (letters p)) /\ Forall (fun w => w <= 9) (weights p) /\
  valid_runes (letters p).
Proof.
  intros H. pose proof (decode_valid s) as Hv. unfold valid_runes in *. rewrite Forall_forall in Hv.
  destruct (groups_cases (decode s)) as [(gs & Hg)|[(q & d & gs & Hs & Hg & Hd)|Hf]].
  - rewrite (run_a s gs Hg) in H. injection H as <-. cbn.
    split; [rewrite app_length, !map_length; simpl; lia|].
    split; [apply Forall_app; split; [eapply groups_weights, Hg|repeat constructor; lia]|].
    apply Forall_forall. intros x Hx. apply Hv. eapply groups_letters; eassumption.
  - rewrite (run_b s q d gs Hs Hg Hd) in H. injection H as <-. cbn.
    split; [rewrite app_length, !map_length; simpl; lia|].
    split; [apply Forall_app; split; [eapply groups_weights, Hg|]|].
    + constructor; [|constructor]. unfold ascii_digit in Hd. lia.
    + apply Forall_forall. intros x Hx. apply Hv. rewrite Hs. apply in_or_app; left. eapply groups_letters; eassumption.
  - rewrite (run_c s Hf) in H. discriminate.
Qed.

(** Round trip. *)
Lemma itoa_digit w : w <= 9 -> itoa_N (N.of_nat w) = encode [(48 + N.of_nat w)%N].
Proof. intros H. do 10 (destruct w as [|w]; [reflexivity|]). lia. Qed.

Fixpoint zip_groups (ls : list N) (ws : list nat) : list (nat * N) :=
  match ls, ws with l :: ls', w :: ws' => (w, l) :: zip_groups ls' ws' | _, _ => [] end.

Lemma zip_map ls ws : List.length ws = S (List.length ls) ->
  map snd (zip_groups ls ws) = ls /\ exists w, ws = map fst (zip_groups ls ws) ++ [w].
Proof.
  revert ws; induction ls as [|l ls IH]; intros [|w ws] H; try discriminate.
  - destruct ws; [|discriminate]. simpl. split; [reflexivity|]. exists w. reflexivity.
  - simpl in H. destruct (IH ws ltac:(lia)) as [H1 [x H2]]. simpl. split; [congruence|].
    exists x. rewrite H2 at 1. reflexivity.
Qed.

Definition group_runes (g : nat * N) : list N := [(48 + N.of_nat (fst g))%N; snd g].

Lemma groups_of gs : Forall (fun w => w <= 9) (map fst gs) -> groups dig (flat_map group_runes gs) gs.
Proof.
  induction gs as [|g gs IH] using rev_ind; intros H; [constructor|].
  rewrite map_app in H. apply Forall_app in H as [H1 H2]. inversion H2 as [|? ? Hw _]; subst.
  rewrite flat_map_app. destruct g as [w r]. cbn [fst] in Hw.
  pose proof (groups_digit dig (48 + N.of_nat w)%N r (flat_map group_runes gs) gs) as Hgd.
  replace (N.to_nat (48 + N.of_nat w - 48)) with w in Hgd by lia.
  apply Hgd; [unfold ascii_digit; lia|]. apply IH, H1.
Qed.

Lemma string_runes gs w : Forall (fun w => w <= 9) (map fst gs ++ [w]) ->
  pattern_string_go (map snd gs) (map fst gs ++ [w]) = encode (flat_map group_runes gs ++ [(48 + N.of_nat w)%N]).
Proof.
  induction gs as [|[x r] gs IH]; intros H.
  - inversion H; subst. cbn [map app flat_map pattern_string_go]. rewrite itoa_digit by assumption. apply app_nil_r.
  - cbn [map app pattern_string_go fst snd] in *. inversion H as [|? ? Hx Hf]; subst.
    rewrite itoa_digit by exact Hx. rewrite IH by exact Hf.
    cbn [flat_map group_runes fst snd]. 
    change (encode (([(48 + N.of_nat x)%N; r] ++ flat_map group_runes gs) ++ [(48 + N.of_nat w)%N]))
      with (encode_rune (48 + N.of_nat x)%N ++ encode_rune r ++ encode (flat_map group_runes gs ++ [(48 + N.of_nat w)%N])).
    cbn [encode flat_map]. rewrite app_nil_r. reflexivity.
Qed.

Lemma digit_valid w : w <= 9 -> valid_rune (48 + N.of_nat w) = true.
Proof. intros H. apply valid_rune_intro; lia. Qed.

Lemma parse_string p : List.length (weights p) = S (List.length (letters p)) ->
  Forall (fun w => w <= 9) (weights p) -> valid_runes (letters p) ->
  parse_pattern ext (pattern_string p) = Ok p.
Proof.
  destruct p as [ls ws]. cbn [letters weights]. intros Hl Hw Hv.
  destruct (zip_map ls ws Hl) as [H1 [w H2]]. set (gs := zip_groups ls ws) in *. clearbody gs.
  subst ls. rewrite H2 in Hw |- *. clear H2 Hl ws.
  unfold pattern_string. cbn [letters weights]. rewrite string_runes by exact Hw.
  pose proof Hw as Hw'. apply Forall_app in Hw' as [Hw1 Hw2]. inversion Hw2 as [|? ? Hww _]; subst.
  assert (Hd : decode (encode (flat_map group_runes gs ++ [(48 + N.of_nat w)%N])) = flat_map group_runes gs ++ [(48 + N.of_nat w)%N]).
  { apply decode_encode. apply Forall_app. split; [|constructor; [apply digit_valid, Hww|constructor]].
    clear - Hw1 Hv. induction gs as [|[x r] gs IH]; [constructor|].
    inversion Hw1; inversion Hv; subst. cbn. constructor; [apply digit_valid; assumption|].
    constructor; [assumption|]. apply IH; assumption. }
  rewrite (run_b _ _ _ _ Hd (groups_of gs Hw1)); [|unfold ascii_digit; lia].
  do 4 f_equal. lia.
Qed.

(** ** Lines *)
Lemma raw_lines_line cur l s : ~ In lf l -> raw_lines cur (l ++ lf :: s) = (rev cur ++ l) :: raw_lines [] s.
Proof.
  revert cur; induction l as [|c l IH]; intros cur H; cbn [app raw_lines].
  - rewrite Ascii.eqb_refl, app_nil_r. reflexivity.
  - destruct (Ascii.eqb_spec c lf) as [->|_]; [exfalso; apply H; left; reflexivity|].
    rewrite IH by (intros Hi; apply H; right; exact Hi). simpl. rewrite <- app_assoc. reflexivity.
Qed.
Lemma raw_lines_tail cur l : ~ In lf l -> raw_lines cur l = match rev cur ++ l with [] => [] | x => [x] end.
Proof.
  revert cur; induction l as [|c l IH]; intros cur H; cbn [raw_lines].
  - rewrite app_nil_r. destruct cur as [|x cur]; [reflexivity|].
    destruct (rev (x :: cur)) eqn:E; [|reflexivity].
    apply (f_equal (@List.length _)) in E. rewrite rev_length in E. discriminate.
  - destruct (Ascii.eqb_spec c lf) as [->|_]; [exfalso; apply H; left; reflexivity|].
    rewrite IH by (intros Hi; apply H; right; exact Hi). simpl. rewrite <- app_assoc. reflexivity.
Qed.
Definition tail_line (t : bytes) : list bytes := match t with [] => [] | _ => [t] end.
Lemma raw_lines_text ls t : Forall no_lf ls -> no_lf t -> raw_lines [] (text_of_lines ls t) = ls ++ tail_line t.
Proof.
  unfold text_of_lines. induction 1 as [|l ls Hl _ IH]; intros Ht; cbn [flat_map app].
  - rewrite raw_lines_tail by exact Ht. destruct t; reflexivity.
  - rewrite <- !app_assoc. cbn [app]. rewrite raw_lines_line by exact Hl. cbn [rev app]. rewrite IH by exact Ht. reflexivity.
Qed.

Lemma trim_right_ws l c : is_ws c = true -> trim_right is_ws (l ++ [c]) = trim_right is_ws l.
Proof. intros H. unfold trim_right. rewrite rev_app_distr. simpl. rewrite H. reflexivity. Qed.
Lemma trim_left_snoc cut l c : cut c = true ->
  (trim_left cut (l ++ [c]) = trim_left cut l ++ [c]) \/ (trim_left cut (l ++ [c]) = [] /\ trim_left cut l = []).
Proof.
  intros H. induction l as [|x l IH]; cbn [app trim_left].
  - rewrite H. right; split; reflexivity.
  - destruct (cut x); [exact IH|]. left; reflexivity.
Qed.
Lemma trim_drop_cr l : trim is_ws (drop_cr l) = trim is_ws l.
Proof.
  unfold drop_cr. destruct (rev l) as [|c r] eqn:E; [reflexivity|].
  destruct (Ascii.eqb_spec c cr) as [->|_]; [|reflexivity].
  assert (l = rev r ++ [cr]) as -> by (rewrite <- (rev_involutive l), E; reflexivity).
  unfold trim. destruct (trim_left_snoc is_ws (rev r) cr eq_refl) as [->|[-> ->]]; [|reflexivity].
  symmetry. apply trim_right_ws. reflexivity.
Qed.


Lemma bad_line_iff l : bad_line l <-> trim is_ws l <> [] /\ exists e, parse_pattern ext (trim is_ws l) = Err e.
Proof.
  unfold HyphView.bad_line. rewrite parse_err_iff. split; [|tauto].
  intros H. split; [|exact H]. intros E. rewrite E in H. destruct H as (p & d & r & gs & H & _).
  destruct p; discriminate.
Qed.

Lemma parse_lines_cr pl ls : parse_lines ext pl (map drop_cr ls) = parse_lines ext pl ls.
Proof.
  revert pl; induction ls as [|l ls IH]; intros pl; [reflexivity|].
  cbn [map parse_lines]. rewrite trim_drop_cr. destruct (trim is_ws l); [apply IH|].
  destruct (parse_pattern _ _); [apply IH|reflexivity].
Qed.
Lemma scan_short ls : Forall (fun l => (N.of_nat (List.length l) < max_token)%N) ls -> scan_tokens ls = map drop_cr ls.
Proof.
  induction 1 as [|l ls Hl _ IH]; [reflexivity|]. cbn [scan_tokens map].
  apply N.ltb_lt in Hl. rewrite Hl, IH. reflexivity.
Qed.

Lemma parse_lines_snoc pl ls l : parse_lines ext pl (ls ++ [l]) =
  match parse_lines ext pl ls with Ok q => parse_lines ext q [l] | Err e => Err e end.
Proof.
  revert pl; induction ls as [|x ls IH]; intros pl; [reflexivity|].
  cbn [app parse_lines]. destruct (trim is_ws x); [apply IH|].
  destruct (parse_pattern _ _); [apply IH|reflexivity].
Qed.


Lemma last_def_snoc ls x key p :
  last_def (ls ++ [x]) key p <->
  (defines x p /\ encode (letters p) = key) \/
  ((forall p', defines x p' -> encode (letters p') <> key) /\ last_def ls key p).
Proof.
  split.
  - intros (l1 & l & l2 & H & Hd & Hk & Hno).
    destruct l2 as [|y l2] using rev_ind.
    + apply app_inj_tail in H as [_ ->]. left; auto.
    + clear IHl2. rewrite app_comm_cons, app_assoc in H. apply app_inj_tail in H as [-> ->]. right. split.
      * intros p' Hp'. apply (Hno y); [apply in_or_app; right; left; reflexivity|exact Hp'].
      * exists l1, l, l2. repeat split; try apply Hd; try assumption.
        intros l' p' Hin. apply Hno, in_or_app; left; exact Hin.
  - intros [[Hd Hk]|[Hno (l1 & l & l2 & -> & Hd & Hk & Hno')]].
    + exists ls, x, []. repeat split; try apply Hd; try assumption. intros l' p' [].
    + exists l1, l, (l2 ++ [x]). rewrite <- app_assoc. repeat split; try apply Hd; try assumption.
      intros l' p' Hin. apply in_app_or in Hin as [Hin|[<-|[]]]; [apply Hno', Hin|apply Hno].
Qed.

Lemma parse_lines_find ls pl : parse_lines ext [] ls = Ok pl ->
  forall key p, find pl key = Some p <-> last_def ls key p.
Proof.
  revert pl; induction ls as [|x ls IH] using rev_ind; intros pl H key p.
  - cbn in H. injection H as <-. split; [discriminate|]. intros (l1 & l & l2 & H & _). destruct l1; discriminate.
  - rewrite parse_lines_snoc in H. destruct (parse_lines ext [] ls) as [q|] eqn:E; [|discriminate].
    specialize (IH q eq_refl key). cbn [parse_lines] in H. rewrite last_def_snoc.
    destruct (trim is_ws x) as [|c t] eqn:Et.
    + injection H as <-. rewrite IH. split; [|intros [[[Hd _] _]|[_ Hd]]; [congruence|exact Hd]].
      intros Hd. right. split; [|exact Hd]. intros p' [Hn _]. congruence.
    + destruct (parse_pattern ext (c :: t)) as [p0|] eqn:Ep; [|discriminate].
      injection H as <-. cbn [find].
      assert (Hdx : forall p', defines x p' <-> p' = p0).
      { intros p'. unfold HyphView.defines. rewrite Et, Ep. split; [intros [_ [= ->]]; reflexivity|].
        intros ->. split; [discriminate|reflexivity]. }
      destruct (beqb_spec (encode (letters p0)) key) as [Hk|Hk].
      * split.
        -- intros [= <-]. left. split; [apply Hdx; reflexivity|exact Hk].
        -- intros [[Hd _]|[Hno _]]; [apply Hdx in Hd; congruence|].
           exfalso. apply (Hno p0); [apply Hdx; reflexivity|exact Hk].
      * rewrite IH. split.
        -- intros Hd. right. split; [|exact Hd]. intros p' Hp'. apply Hdx in Hp'. subst. exact Hk.
        -- intros [[Hd Hk']|[_ Hd]]; [apply Hdx in Hd; subst; contradiction|exact Hd].
Qed.

Lemma parse_lines_err ls pl : (exists e, parse_lines ext pl ls = Err e) <-> exists l, In l ls /\ bad_line l.
Proof.
  revert pl; induction ls as [|l ls IH]; intros pl; cbn [parse_lines].
  - split; [intros [e H]; discriminate|intros (l & [] & _)].
  - destruct (trim is_ws l) as [|c t] eqn:Et.
    + rewrite IH. split; [intros (x & Hx & Hb); exists x; split; [right; exact Hx|exact Hb]|].
      intros (x & [<-|Hx] & Hb); [|exists x; auto]. apply bad_line_iff in Hb as [Hb _]. congruence.
    + destruct (parse_pattern ext (c :: t)) as [p|e] eqn:Ep.
      * rewrite IH. split; [intros (x & Hx & Hb); exists x; split; [right; exact Hx|exact Hb]|].
        intros (x & [<-|Hx] & Hb); [|exists x; auto]. apply bad_line_iff in Hb as [_ [e He]]. rewrite Et in He. congruence.
      * split; [|eauto]. intros _. exists l. split; [left; reflexivity|]. apply bad_line_iff.
        rewrite Et. split; [discriminate|]. exists e. exact Ep.
Qed.


Lemma load_text ls t : Forall no_lf ls -> no_lf t -> Forall short ls -> short t ->
  load ext (text_of_lines ls t) = parse_lines ext [] (ls ++ [t]).
Proof.
  intros Hl Ht Hsl Hst. unfold load, scan_lines. rewrite raw_lines_text by assumption.
  rewrite scan_short, parse_lines_cr.
  2:{ apply Forall_app. split; [exact Hsl|]. destruct t; constructor; [exact Hst|constructor]. }
  destruct t as [|c t]; [|reflexivity].
  cbn [tail_line]. rewrite app_nil_r, parse_lines_snoc. cbn. destruct (parse_lines ext [] ls); reflexivity.
Qed.

Lemma scan_long ls l rest : Forall short ls -> ~ short l -> scan_tokens (ls ++ l :: rest) = map drop_cr ls.
Proof.
  intros Hs Hl. induction Hs as [|x ls Hx _ IH]; cbn [app scan_tokens map].
  - unfold short in Hl. destruct (N.ltb_spec (N.of_nat (List.length l)) max_token) as [H|H]; [|reflexivity].
    exfalso. apply Hl. exact H.
  - unfold short in Hx. apply N.ltb_lt in Hx. unfold max_token. rewrite Hx, IH. reflexivity.
Qed.
Lemma raw_lines_cut ls l rest : Forall no_lf ls -> no_lf l -> exists more,
  raw_lines [] (text_of_lines ls (l ++ lf :: rest)) = ls ++ l :: more.
Proof.
  intros Hl Hn. exists (raw_lines [] rest). unfold text_of_lines.
  induction Hl as [|x ls Hx _ IH]; cbn [flat_map app].
  - rewrite raw_lines_line by exact Hn. reflexivity.
  - rewrite <- !app_assoc. cbn [app]. rewrite raw_lines_line by exact Hx. cbn [rev app]. rewrite IH. reflexivity.
Qed.
Lemma load_long ls l rest : Forall no_lf ls -> Forall short ls -> no_lf l -> ~ short l ->
  load ext (text_of_lines ls (l ++ lf :: rest)) = load ext (text_of_lines ls []).
Proof.
  intros Hl Hs Hn Hlong. unfold load, scan_lines.
  destruct (raw_lines_cut ls l rest Hl Hn) as [more ->].
  rewrite raw_lines_text by (assumption || (intros [])).
  cbn [tail_line]. rewrite app_nil_r, scan_long by assumption.
  rewrite scan_short; [reflexivity|]. exact Hs.
Qed.

Lemma parse_lines_wf ls : forall pl pl', wf_lookup pl -> parse_lines ext pl ls = Ok pl' -> wf_lookup pl'.
Proof.
  induction ls as [|l ls IH]; intros pl pl' Hwf H; cbn [parse_lines] in H.
  - injection H as <-. exact Hwf.
  - destruct (trim is_ws l) as [|c t]; [eapply IH; eassumption|].
    destruct (parse_pattern ext (c :: t)) as [p|] eqn:E; [|discriminate].
    eapply IH; [|exact H]. intros k q. cbn [find].
    destruct (beqb_spec (encode (letters p)) k) as [<-|_]; [|apply Hwf].
    intros [= <-]. apply parse_wf in E as (H1 & _ & H3). auto.
Qed.
Lemma load_wf data pl : load ext data = Ok pl -> wf_lookup pl.
Proof. apply parse_lines_wf. intros k p; discriminate. Qed.
End D.
