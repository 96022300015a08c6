(** Proofs about the distance of lines (C100). *)
From Coq Require Import QArith Lia Lqa.
From Verif Require Import GoStr GoFmt GoStrFacts Num Style Class Text Instr Engine EngineFacts Layout Lines LinesSpec LinesFacts LinesLink LinesThms WriteSpec WriteFacts DrawFacts PlaceSpec.
Local Open Scope nat_scope.

Section Feed.
Context {F : Num} {eng : Engine F} (callback : cb -> M eng unit) (mut : Styled F -> Styles F -> Styles F) (hyph : bytes -> list bytes).
Local Notation PS := (PS F eng).
Hypothesis Hpage : page_stable (eng:=eng).

(** ** Styles of words *)
Definition frag_style (f : frag F) : Styles F := match f with Whole st _ _ | Head st _ _ _ _ | Tail st _ _ => st end.
Lemma frags_styled : forall (P : Styles F -> Prop) hy ts width gs, broken_into hy width ts gs -> (forall st w m, In (TWord st w m) ts -> P st) ->
  forall g f, In g gs -> In f (g_frags g) -> P (frag_style f).
Proof.
  intros P hy ts width gs [B1 B2 B3] Ht g f Hg Hf.
  assert (HT : forall g st w m f, In g gs -> In f (g_frags g) -> In (TWord st w m) (frag_tokens f) -> In (TWord st w m) ts).
  { intros g0 st w m f0 H1 H2 H3. rewrite <- B1. apply in_flat_map. exists g0. split; [exact H1|]. unfold group_tokens. apply in_or_app. left. apply in_flat_map. exists f0. split; assumption. }
  destruct f as [st w m|st w a b' m|st r m]; cbn [frag_style].
  - exact (Ht st w m (HT g st w m _ Hg Hf (or_introl eq_refl))).
  - exact (Ht st w m (HT g st w m _ Hg Hf (or_introl eq_refl))).
  - apply in_split in Hg as (x & y & Eg). apply in_split in Hf as (pre & post & Ef).
    destruct (proj1 (proj1 (groups_at _ _ _ _ B2 x g y Eg) pre _ post Ef)) as (_ & p & w & a & b' & Ep & _). apply last_in in Ep.
    apply (Ht st w m). apply (HT _ st w m (Head st w a b' m) ltac:(rewrite Eg; apply in_or_app; left; exact Ep)); [cbn; apply in_or_app; right; left; reflexivity|left; reflexivity].
Qed.
Definition written (sty : Styles F) (iss : list (instr F)) (st : Styles F) : Prop := st = sty \/ exists sd t, In (IParagraph sd t) iss /\ st = mut sd sty.
Lemma tokens_styled : forall blank n sty iss (e : est eng) st w m, In (TWord st w m) (tokens mut blank n sty iss e) -> written sty iss st.
Proof.
  intros blank n sty. induction iss as [|is iss IH]; intros e st w m H; [destruct H|].
  assert (I : written sty iss st -> written sty (is :: iss) st).
  { intros [K|(sd & t & K & E)]; [left; exact K|right; exists sd, t; split; [right; exact K|exact E]]. }
  assert (K : forall st' ws (e : est eng), In (TWord st w m) match match ws with [] => if blank then [[]] else [] | _ => ws end with [] => tokens mut blank n sty iss e
     | ws => map (fun w => TWord st' w (textWidth (simple (ChangeFont (SFont st')) e))) ws ++ tokens mut blank n sty iss (simple (ChangeFont (SFont st')) e) end ->
     st = st' \/ written sty (is :: iss) st).
  { intros st' ws0 e0 H0. destruct (match ws0 with [] => if blank then [[]] else [] | _ => ws0 end) as [|w0 ws]; [right; exact (I (IH _ _ _ _ H0))|].
    apply in_app_or in H0 as [H0|H0]; [|right; exact (I (IH _ _ _ _ H0))]. apply in_map_iff in H0 as (w' & E & Hw). injection E as <- _ _. left. reflexivity. }
  cbn [tokens] in H. destruct is; cbn [reading] in H; try exact (I (IH _ _ _ _ H)).
  - destruct (K _ _ _ H) as [->|R]; [left; reflexivity|exact R].
  - destruct (K _ _ _ H) as [->|R]; [right; eexists _, _; split; [left; reflexivity|reflexivity]|exact R].
  - destruct H as [H|H]; [discriminate H|exact (I (IH _ _ _ _ H))].
Qed.
Lemma items_styled : forall (P : Styles F -> Prop) fs, (forall f, In f fs -> P (frag_style f)) -> forall it, In it (items_of fs) -> P (i_sty it).
Proof.
  intros P fs H it Hi. assert (E : forall b f, i_sty (frag_item b f) = frag_style f) by (intros b [| |]; reflexivity).
  destruct fs as [|f fs]; [destruct Hi|]. destruct Hi as [<-|Hi]; [rewrite E; apply H; left; reflexivity|]. apply in_map_iff in Hi as (f' & <- & Hf). rewrite E. apply H. right. exact Hf.
Qed.

(** ** Line feeds of commands *)
Definition item_fonts (items : list (textItem F)) : list (Font F) := map (fun it => SFont (i_sty it)) items.
Definition last_font (f : Font F) (row : list (Font F)) : Font F := last row f.
Lemma feeds_plain : forall items f row rest, feeds f row (plain_items items ++ rest) = feeds (last (item_fonts items) f) (row ++ item_fonts items) rest.
Proof.
  induction items as [|it items IH]; intros f row rest; [cbn; rewrite app_nil_r; reflexivity|].
  cbn [plain_items flat_map app feeds]. fold (plain_items items). rewrite IH, <- app_assoc. f_equal.
  cbn [item_fonts map]. destruct items as [|it' items]; [reflexivity|]. cbn [item_fonts map last]. clear. induction (map _ items) as [|a l IH] in f, it |- * ; [reflexivity|]. destruct l; [reflexivity|]. apply (IH it f).
Qed.
Lemma feeds_moved : forall items xs f row rest, List.length xs = List.length items -> feeds f row (moved_items items xs ++ rest) = feeds (last (item_fonts items) f) (row ++ item_fonts items) rest.
Proof.
  induction items as [|it items IH]; intros [|x xs] f row rest L; try discriminate L; [cbn; rewrite app_nil_r; reflexivity|]. injection L as L.
  cbn [moved_items combine flat_map app fst snd feeds]. fold (moved_items items xs). rewrite IH, <- app_assoc by exact L. f_equal.
  cbn [item_fonts map]. destruct items as [|it' items]; [reflexivity|]. cbn [item_fonts map last]. clear. induction (map _ items) as [|a l IH] in f, it |- * ; [reflexivity|]. destruct l; [reflexivity|]. apply (IH it f).
Qed.
Definition fed (sty : Styles F) (f : Font F) (items : list (textItem F)) : list (Font F) * (F * Font F) :=
  (item_fonts items, (LineSpacing (SDim sty), last (item_fonts items) f)).
Lemma feeds_line : forall (sty : Styles F) width x l f rest, feeds f [] (line_cmds sty width x l ++ rest) = fed sty f (l_items l) :: feeds (last (item_fonts (l_items l)) f) [] rest.
Proof.
  intros. unfold line_cmds. rewrite <- !app_assoc. assert (E : forall rest, feeds f [] (line_start sty width x l ++ rest) = feeds f [] rest) by (intros r; unfold line_start; repeat destruct (beqb _ _); reflexivity).
  rewrite E, feeds_plain. reflexivity.
Qed.
Lemma feeds_block : forall (sty : Styles F) x l cs f rest, block_cmds sty x l cs -> feeds f [] (cs ++ rest) = fed sty f (l_items l) :: feeds (last (item_fonts (l_items l)) f) [] rest.
Proof.
  intros sty x l cs f rest H. unfold block_cmds in H. destruct (stretched l).
  - destruct H as (xs & L & ->). cbn [app feeds]. rewrite <- app_assoc, feeds_moved by exact L. reflexivity.
  - subst cs. cbn [app feeds]. rewrite <- app_assoc, feeds_plain. reflexivity.
Qed.
Lemma feeds_start : forall (sty : Styles F) fonts f rest, exists f', feeds f [] (start_cmds sty fonts ++ rest) = feeds f' [] rest.
Proof. intros sty fonts f rest. unfold start_cmds. cbn [app feeds]. generalize (SFont sty). induction fonts as [|f1 fonts IH]; intros f0; cbn [map app feeds]; [exists f0; reflexivity|apply IH]. Qed.
Lemma feeds_lines : forall (sty : Styles F) width x lines f line, In line (feeds f [] (flat_map (line_cmds sty width x) lines)) -> exists f' l, In l lines /\ line = fed sty f' (l_items l).
Proof.
  intros sty width x. induction lines as [|l lines IH]; intros f line H; [destruct H|]. cbn [flat_map] in H. rewrite feeds_line in H. destruct H as [<-|H].
  - exists f, l. split; [left; reflexivity|reflexivity].
  - destruct (IH _ _ H) as (f' & l' & Hl & E). exists f', l'. split; [right; exact Hl|exact E].
Qed.
Lemma feeds_blocks : forall (sty : Styles F) x lines css, Forall2 (block_cmds sty x) lines css -> forall f line, In line (feeds f [] (List.concat css)) -> exists f' l, In l lines /\ line = fed sty f' (l_items l).
Proof.
  intros sty x. induction 1 as [|l cs lines css Hl Hr IH]; intros f line H; [destruct H|]. cbn [List.concat] in H. rewrite (feeds_block _ _ _ _ _ _ Hl) in H. destruct H as [<-|H].
  - exists f, l. split; [left; reflexivity|reflexivity].
  - destruct (IH _ _ H) as (f' & l' & Hl' & E). exists f', l'. split; [right; exact Hl'|exact E].
Qed.
(** No words behind the last line feed. *)
Lemma texts_plain : forall items rest, texts (plain_items items ++ rest) = List.length (item_fonts items) + texts rest.
Proof. induction items as [|it items IH]; intros rest; [reflexivity|]. cbn [plain_items flat_map app texts]. fold (plain_items items). rewrite IH. reflexivity. Qed.
Lemma texts_moved : forall items xs rest, List.length xs = List.length items -> texts (moved_items items xs ++ rest) = List.length (item_fonts items) + texts rest.
Proof.
  induction items as [|it items IH]; intros [|x xs] rest L; try discriminate L; [reflexivity|]. injection L as L. cbn [moved_items combine flat_map app fst snd texts]. fold (moved_items items xs). rewrite IH by exact L. reflexivity.
Qed.
Lemma texts_line : forall (sty : Styles F) width x l rest, texts (line_cmds sty width x l ++ rest) = List.length (item_fonts (l_items l)) + texts rest.
Proof.
  intros. unfold line_cmds. rewrite <- !app_assoc. assert (E : forall rest, texts (line_start sty width x l ++ rest) = texts rest) by (intros r; unfold line_start; repeat destruct (beqb _ _); reflexivity).
  rewrite E, texts_plain. reflexivity.
Qed.
Lemma texts_block : forall (sty : Styles F) x l cs rest, block_cmds sty x l cs -> texts (cs ++ rest) = List.length (item_fonts (l_items l)) + texts rest.
Proof.
  intros sty x l cs rest H. unfold block_cmds in H. destruct (stretched l).
  - destruct H as (xs & L & ->). cbn [app texts]. rewrite <- app_assoc, texts_moved by exact L. reflexivity.
  - subst cs. cbn [app texts]. rewrite <- app_assoc, texts_plain. reflexivity.
Qed.
Lemma texts_start : forall (sty : Styles F) fonts rest, texts (start_cmds sty fonts ++ rest) = texts rest.
Proof. intros sty fonts rest. unfold start_cmds. cbn [app texts]. induction fonts as [|f1 fonts IH]; cbn [map app texts]; [reflexivity|apply IH]. Qed.
Lemma lines_fed : forall (sty : Styles F) width x lines f, List.length (flat_map fst (feeds f [] (flat_map (line_cmds sty width x) lines))) = texts (flat_map (line_cmds sty width x) lines).
Proof. intros sty width x. induction lines as [|l lines IH]; intros f; [reflexivity|]. cbn [flat_map]. rewrite feeds_line, texts_line. cbn [flat_map fed fst]. rewrite app_length, IH. reflexivity. Qed.
Lemma blocks_fed : forall (sty : Styles F) x lines css, Forall2 (block_cmds sty x) lines css -> forall f, List.length (flat_map fst (feeds f [] (List.concat css))) = texts (List.concat css).
Proof. intros sty x. induction 1 as [|l cs lines css Hl Hr IH]; intros f; [reflexivity|]. cbn [List.concat]. rewrite (feeds_block _ _ _ _ _ _ Hl), (texts_block _ _ _ _ _ Hl). cbn [flat_map fed fst]. rewrite app_length, IH. reflexivity. Qed.
Lemma text_feeds : forall iss width sty (s s' : PS), writeTextFnc callback mut hyph sty iss width sty s = Ok tt s' ->
  exists cmds, wrote s s' cmds /\ (forall f0, List.length (flat_map fst (feeds f0 [] cmds)) = texts cmds) /\ forall f0 row n f, In (row, (n, f)) (feeds f0 [] cmds) ->
    n = LineSpacing (SDim sty) /\ (row <> [] -> exists row', row = row' ++ [f]) /\
    forall f', In f' row -> f' = SFont sty \/ exists st t, In (IParagraph st t) iss /\ f' = SFont (mut st sty).
Proof.
  intros iss width sty s s' H.
  assert (Fin : forall (lines : list (textLine F)), (forall l it, In l lines -> In it (l_items l) -> written sty iss (i_sty it)) -> forall row n f,
    (exists f' l, In l lines /\ (row, (n, f)) = fed sty f' (l_items l)) ->
    n = LineSpacing (SDim sty) /\ (row <> [] -> exists row', row = row' ++ [f]) /\ forall f', In f' row -> f' = SFont sty \/ exists st t, In (IParagraph st t) iss /\ f' = SFont (mut st sty)).
  { intros lines Hs row n f (f' & l & Hl & E). unfold fed in E. injection E as -> -> ->. split; [reflexivity|]. split.
    - intros N. destruct (exists_last N) as (a & b & Ea). exists a. rewrite Ea, last_last. reflexivity.
    - intros f2 H2. apply in_map_iff in H2 as (it & <- & Hi). destruct (Hs l it Hl Hi) as [->|(sd & t & K & ->)]; [left; reflexivity|right; exists sd, t; split; [exact K|reflexivity]]. }
  unfold writeTextFnc in H. destruct (beqb (HAlign (SAlign sty)) ($"block")).
  - destruct (writeTextHyphenated_wrote callback mut Hpage hyph iss width sty s s' H) as (lines & s1 & css & E & C & W). eexists. split; [exact W|]. split.
    { intros f0. rewrite texts_start. destruct (feeds_start sty (text_fonts mut true (currentPage (ps_eng (text_state sty s))) sty iss) f0 (List.concat css)) as (f1 & R). rewrite R. exact (blocks_fed _ _ _ _ C f1). }
    intros f0 row n f Hin.
    destruct (feeds_start sty (text_fonts mut true (currentPage (ps_eng (text_state sty s))) sty iss) f0 (List.concat css)) as (f1 & R). rewrite R in Hin.
    apply (Fin lines); [|exact (feeds_blocks _ _ _ _ C _ _ Hin)]. intros l it Hl Hi.
    destruct (textLinesHyphenated_rules mut hyph Hpage iss width sty (text_state sty s)) as (ls & gs & E' & L & _ & B). rewrite E in E'. injection E' as <- _.
    destruct (Forall2_in_l _ _ _ _ _ L l Hl) as (g & Hg & [L1 _] & _). rewrite L1 in Hi.
    exact (items_styled (written sty iss) _ (fun f' Hf' => frags_styled (written sty iss) _ _ _ _ B (tokens_styled _ _ _ _ _) g f' Hg Hf') it Hi).
  - destruct (writeText_wrote callback mut Hpage iss width sty s s' H) as (lines & s1 & E & W). eexists. split; [exact W|]. split.
    { intros f0. rewrite texts_start. destruct (feeds_start sty (text_fonts mut false (currentPage (ps_eng (text_state sty s))) sty iss) f0 (flat_map (line_cmds sty width (fst (getXY (ps_eng s1)))) lines)) as (f1 & R). rewrite R. apply lines_fed. }
    intros f0 row n f Hin.
    destruct (feeds_start sty (text_fonts mut false (currentPage (ps_eng (text_state sty s))) sty iss) f0 (flat_map (line_cmds sty width (fst (getXY (ps_eng s1)))) lines)) as (f1 & R). rewrite R in Hin.
    apply (Fin lines); [|exact (feeds_lines _ _ _ _ _ _ Hin)]. intros l it Hl Hi.
    destruct (textLines_rules mut Hpage iss width sty (text_state sty s)) as (ls & gs & E' & L & B). rewrite E in E'. injection E' as <- _.
    destruct (Forall2_in_l _ _ _ _ _ L l Hl) as (g & Hg & L1 & _). rewrite L1 in Hi.
    exact (items_styled (written sty iss) _ (fun f' Hf' => frags_styled (written sty iss) _ _ _ _ B (tokens_styled _ _ _ _ _) g f' Hg Hf') it Hi).
Qed.
End Feed.
Lemma text_below : forall (eng : Engine NumQ) (callback : cb -> M eng unit) mut hyph (fh : Font NumQ -> QArith_base.Q), page_stable (eng:=eng) ->
  forall iss width (sty : Styles NumQ) (s s' : PS NumQ eng),
  (1 <= LineSpacing (SDim sty))%Q -> (0 <= fh (SFont sty))%Q -> (forall st t, In (IParagraph st t) iss -> fh (SFont (mut st sty)) == fh (SFont sty))%Q ->
  writeTextFnc callback mut hyph sty iss width sty s = Ok tt s' ->
  exists cmds, wrote s s' cmds /\ forall f0 line, In line (feeds f0 [] cmds) -> below fh line.
Proof.
  intros eng callback mut hyph fh Hp iss width sty s s' Hs Hh Hf H. destruct (text_feeds callback mut hyph Hp iss width sty s s' H) as (cmds & W & _ & R). exists cmds. split; [exact W|].
  intros f0 (row, (n, f)) Hin f' Hf'. destruct (R f0 row n f Hin) as (-> & E & S). destruct (E ltac:(intros ->; destruct Hf')) as (row' & Er).
  assert (K : forall f1, In f1 row -> (fh f1 == fh (SFont sty))%Q). { intros f1 H1. destruct (S f1 H1) as [->|(st & t & H2 & ->)]; [reflexivity|exact (Hf st t H2)]. }
  assert (K1 := K f' Hf'). assert (K2 : (fh f == fh (SFont sty))%Q) by (apply K; rewrite Er; apply in_or_app; right; left; reflexivity).
  rewrite K1, K2. set (h := fh (SFont sty)) in *. clearbody h. clear - Hs Hh. change (carrier NumQ) with QArith_base.Q in *. set (x := LineSpacing (SDim sty)) in *. clearbody x.
  setoid_replace h with (1 * h)%Q at 1 by ring. apply Qmult_le_compat_r; assumption.
Qed.
