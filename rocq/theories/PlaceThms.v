(** Proofs about where words are printed (C98, C99). *)
From Coq Require Import QArith Lia Lqa.
From Verif Require Import GoStr GoFmt GoStrFacts Num Style Class Text Instr Engine EngineFacts Layout Lines LinesSpec LinesFacts LinesLink LinesThms WriteSpec WriteFacts WriteThms DrawFacts PlaceSpec OneLine.
Local Open Scope nat_scope.
Local Notation Q := QArith_base.Q.

Section Sums.
Variable tw : Font NumQ -> bytes -> Q.
Definition item_width (it : textItem NumQ) : Q := tw (SFont (i_sty it)) (i_text it).
Definition items_width (items : list (textItem NumQ)) : Q := fold_right (fun it a => item_width it + a)%Q 0%Q items.
Lemma fold_total : forall (fs : list (frag NumQ)) a, (fold_left (fun a x => add a (frag_width (F:=NumQ) x)) fs a == a + fold_right (fun f s => frag_width (F:=NumQ) f + s)%Q 0%Q fs)%Q.
Proof. induction fs as [|x l IH]; intros a; cbn [fold_left fold_right]; [lra|]. rewrite IH. cbn. lra. Qed.
Lemma total_cons : forall f (fs : list (frag NumQ)), (total (F:=NumQ) (f :: fs) == frag_width (F:=NumQ) f + fold_right (fun f s => frag_width (F:=NumQ) f + s)%Q 0%Q fs)%Q.
Proof. intros. unfold total, sum_of. rewrite fold_total. cbn [fold_right]. change (@zero NumQ) with 0%Q. lra. Qed.
End Sums.

Section Measured.
Context {eng : Engine NumQ} (mut : Styled NumQ -> Styles NumQ -> Styles NumQ).
Variables (tw : Font NumQ -> bytes -> Q) (right : Q).
Hypothesis P : printer eng tw right.
Local Notation PS := (PS NumQ eng).
Lemma printer_stable : page_stable (eng:=eng).
Proof. intros f e. exact (proj2 (P_font _ _ _ P f e)). Qed.
Lemma printer_measures : forall f (e : est eng) s, textWidth (simple (ChangeFont f) e) s = tw f s.
Proof. exact (P_width _ _ _ P). Qed.

Definition frag_measured (f : frag NumQ) : Prop :=
  match f with Whole st _ m | Head st _ _ _ m | Tail st _ m => forall x, m x = tw (SFont st) x end.
Lemma frags_measured : forall hyph ts width gs, broken_into hyph width ts gs ->
  (forall st w m, In (TWord st w m) ts -> forall x, m x = tw (SFont st) x) ->
  forall g f, In g gs -> In f (g_frags g) -> frag_measured f.
Proof.
  intros hyph ts width gs [B1 B2 B3] Ht g f Hg Hf.
  assert (HT : forall g st w m f, In g gs -> In f (g_frags g) -> In (TWord st w m) (frag_tokens f) -> In (TWord st w m) ts).
  { intros g0 st w m f0 H1 H2 H3. rewrite <- B1. apply in_flat_map. exists g0. split; [exact H1|]. unfold group_tokens. apply in_or_app. left. apply in_flat_map. exists f0. split; assumption. }
  destruct f as [st w m|st w a b' m|st r m]; cbn [frag_measured].
  - exact (Ht st w m (HT g st w m _ Hg Hf (or_introl eq_refl))).
  - exact (Ht st w m (HT g st w m _ Hg Hf (or_introl eq_refl))).
  - apply in_split in Hg as (x & y & Eg). apply in_split in Hf as (pre & post & Ef).
    destruct (proj1 (proj1 (groups_at _ _ _ _ B2 x g y Eg) pre _ post Ef)) as (_ & p & w & a & b' & Ep & _). apply last_in in Ep.
    apply (Ht st w m). apply (HT _ st w m (Head st w a b' m) ltac:(rewrite Eg; apply in_or_app; left; exact Ep)); [cbn; apply in_or_app; right; left; reflexivity|left; reflexivity].
Qed.
(** No tail behind another word. *)
Lemma rest_no_tail : forall hyph width (gs : list (group NumQ)), groups_ok hyph width None gs -> forall g f0 fs f, In g gs -> g_frags g = f0 :: fs -> In f fs ->
  match f with Tail _ _ _ => False | _ => True end.
Proof.
  intros hyph width gs B g f0 fs f Hg E Hf. destruct f; [exact I|exact I|]. apply in_split in Hf as (a & b & ->).
  destruct (frag_in_group _ _ _ _ B g (f0 :: a) _ b Hg E) as (p & K & _). discriminate K.
Qed.
Lemma trim_sp : forall t : bytes, trim is_sp (sp :: t) = trim is_sp t.
Proof. reflexivity. Qed.
Lemma rest_item : forall f, frag_measured f -> match f with Tail _ _ _ => False | _ => True end -> frag_width f = item_width tw (frag_item false f).
Proof. intros [st w m|st w a b m|st r m] M T; [| |destruct T]; cbn [frag_width frag_item]; unfold item_width; cbn [i_sty i_text]; rewrite M; reflexivity. Qed.
Definition frag_regular (f : frag NumQ) : Prop := match f with Whole st _ _ | Head st _ _ _ _ | Tail st _ _ => regular tw (SFont st) end.
Lemma rest_width : forall f, frag_measured f -> frag_regular f -> match f with Tail _ _ _ => False | _ => True end ->
  (word_width tw (frag_item false f) + (1 # 10) <= frag_width (F:=NumQ) f)%Q.
Proof.
  intros [st w m|st w a b m|st r m] M R T; [| |destruct T]; cbn [frag_width frag_item]; unfold word_width; cbn [i_sty i_text]; rewrite M.
  - rewrite trim_sp. apply Qle_trans with (tw (SFont st) w + (1 # 10))%Q; [|apply (R_blank _ _ R)]. apply Qplus_le_compat; [apply (R_trim _ _ R)|apply Qle_refl].
  - unfold head_text. rewrite trim_sp. apply Qle_trans with (tw (SFont st) (List.concat a ++ ["-"%char]) + (1 # 10))%Q; [|apply (R_blank _ _ R)]. apply Qplus_le_compat; [apply (R_trim _ _ R)|apply Qle_refl].
Qed.
Lemma first_width : forall f, frag_measured f -> frag_regular f -> (item_width tw (frag_item true f) <= frag_width (F:=NumQ) f)%Q /\ (word_width tw (frag_item true f) <= frag_width (F:=NumQ) f)%Q.
Proof.
  intros f M R. assert (I : (item_width tw (frag_item true f) <= frag_width (F:=NumQ) f)%Q).
  { destruct f as [st w m|st w a b m|st r m]; cbn [frag_width frag_item]; unfold item_width; cbn [i_sty i_text]; rewrite M; try apply Qle_refl.
    assert (B := R_blank _ _ R w). lra. }
  split; [exact I|]. apply Qle_trans with (2 := I). destruct f; exact (R_trim _ _ R _).
Qed.
Lemma rest_total : forall fs : list (frag NumQ), (forall f, In f fs -> frag_measured f /\ match f with Tail _ _ _ => False | _ => True end) ->
  (fold_right (fun f s => frag_width (F:=NumQ) f + s)%Q 0%Q fs == items_width tw (map (frag_item false) fs))%Q.
Proof.
  induction fs as [|f fs IH]; intros H; [reflexivity|]. assert (I1 := IH (fun f Hf => H f (or_intror Hf))). destruct (H f (or_introl eq_refl)) as [M T].
  cbn [map items_width fold_right]. rewrite I1, (rest_item f M T). unfold items_width. reflexivity.
Qed.
Lemma rest_sums : forall fs : list (frag NumQ), (forall f, In f fs -> frag_measured f /\ match f with Tail _ _ _ => False | _ => True end) -> (forall f, In f fs -> frag_regular f) ->
  (words_width tw (map (frag_item false) fs) + (match fs with [] => 0 | _ => 1 # 10 end) <= fold_right (fun f s => frag_width (F:=NumQ) f + s)%Q 0%Q fs)%Q.
Proof.
  induction fs as [|f fs IH]; intros H R; [cbn; lra|]. assert (I2 := IH (fun f Hf => H f (or_intror Hf)) (fun f Hf => R f (or_intror Hf))). destruct (H f (or_introl eq_refl)) as [M T].
  assert (R2 := rest_width f M (R f (or_introl eq_refl)) T). cbn [map words_width fold_right].
  unfold words_width in I2. assert (Z : (0 <= match fs with [] => 0 | _ => 1 # 10 end)%Q) by (destruct fs; lra). lra.
Qed.
Lemma frags_split : forall hyph width (gs : list (group NumQ)), groups_ok hyph width None gs -> (forall g f, In g gs -> In f (g_frags g) -> frag_measured f) ->
  forall g f0 fs, In g gs -> g_frags g = f0 :: fs -> frag_measured f0 /\ forall f, In f fs -> frag_measured f /\ match f with Tail _ _ _ => False | _ => True end.
Proof.
  intros hyph width gs B M g f0 fs Hg E. split; [apply (M g f0 Hg); rewrite E; left; reflexivity|].
  intros f Hf. split; [apply (M g f Hg); rewrite E; right; exact Hf|exact (rest_no_tail _ _ _ B g f0 fs f Hg E Hf)].
Qed.
Lemma line_total : forall hyph width (gs : list (group NumQ)), groups_ok hyph width None gs -> (forall g f, In g gs -> In f (g_frags g) -> frag_measured f) ->
  forall g, In g gs -> forall st w m fs, g_frags g = Whole st w m :: fs -> (total (F:=NumQ) (g_frags g) == tw (SFont st) (sp :: w) + items_width tw (map (frag_item false) fs))%Q.
Proof.
  intros hyph width gs B M g Hg st w m fs E. destruct (frags_split _ _ _ B M g _ fs Hg E) as [M0 Hfs]. rewrite E. assert (T := total_cons (Whole st w m) fs).
  assert (S1 := rest_total fs Hfs). cbn [frag_measured frag_width] in M0, T. rewrite M0 in T. lra.
Qed.
Lemma line_sums : forall hyph width (gs : list (group NumQ)), groups_ok hyph width None gs -> (forall g f, In g gs -> In f (g_frags g) -> frag_measured f) ->
  (forall g f, In g gs -> In f (g_frags g) -> frag_regular f) ->
  forall g, In g gs -> let items := items_of (g_frags g) in
  (items_width tw items <= total (F:=NumQ) (g_frags g))%Q /\
  (2 <= List.length items -> (words_width tw items + (1 # 10) <= total (F:=NumQ) (g_frags g))%Q).
Proof.
  intros hyph width gs B M R g Hg items. subst items. destruct (g_frags g) as [|f0 fs] eqn:E.
  - cbn. split; [apply Qle_refl|lia].
  - destruct (frags_split _ _ _ B M g f0 fs Hg E) as [M0 Hfs].
    assert (R0 : forall f, In f (f0 :: fs) -> frag_regular f) by (intros f Hf; apply (R g f Hg); rewrite E; exact Hf).
    assert (S1 := rest_total fs Hfs). assert (S2 := rest_sums fs Hfs (fun f Hf => R0 f (or_intror Hf))). destruct (first_width f0 M0 (R0 f0 (or_introl eq_refl))) as [F1 F2]. assert (T := total_cons f0 fs).
    cbn [items_of items_width words_width fold_right List.length]. rewrite map_length. unfold items_width in S1 |- *. unfold words_width in S2. split.
    + lra.
    + intros L. destruct fs as [|f1 fs]; [cbn in L; lia|]. lra.
Qed.

(** Lines of text.go: what their width is. *)
Lemma plain_line : forall iss width sty (s : PS), let '(lines, _) := textLines mut iss width sty s in
  forall l, In l lines -> match l_items l with
  | [] => True
  | it :: items => (l_width l == tw (SFont (i_sty it)) (sp :: i_text it) + items_width tw items)%Q
  end.
Proof.
  intros iss width sty s. destruct (textLines_rules mut printer_stable iss width sty s) as (lines & gs & -> & L & B). intros l Hl.
  destruct (Forall2_in_l _ _ _ _ _ L l Hl) as (g & Hg & L1 & L2). rewrite L1, L2.
  assert (M := frags_measured _ _ _ _ B (fun st w m Hin => tokens_measure mut tw printer_measures _ _ _ _ _ st w m Hin)).
  destruct B as [B1 B2 B3]. assert (S := line_total _ _ _ B2 M g Hg). destruct (g_frags g) as [|f fs] eqn:E; [exact I|]. cbn [items_of].
  destruct (no_parts width gs B2 g f Hg ltac:(rewrite E; left; reflexivity)) as (st & w & m & ->). cbn [frag_item i_sty i_text]. exact (S st w m fs eq_refl).
Qed.
(** Lines of text-hyph.go. *)
Lemma block_line : forall hyph iss width sty (s : PS), (forall f, In f (fonts_of mut sty iss) -> regular tw f) -> let '(lines, _) := textLinesHyphenated mut hyph iss width sty s in
  forall l, In l lines -> (items_width tw (l_items l) <= l_width l)%Q /\ (2 <= List.length (l_items l) -> (words_width tw (l_items l) + (1 # 10) <= l_width l)%Q).
Proof.
  intros hyph iss width sty s Hreg. destruct (textLinesHyphenated_rules mut hyph printer_stable iss width sty s) as (lines & gs & -> & L & _ & B). intros l Hl.
  destruct (Forall2_in_l _ _ _ _ _ L l Hl) as (g & Hg & [L1 L2] & _). rewrite L1, L2.
  assert (M := frags_measured _ _ _ _ B (fun st w m Hin => tokens_measure mut tw printer_measures _ _ _ _ _ st w m Hin)).
  assert (R : forall g f, In g gs -> In f (g_frags g) -> frag_regular f).
  { intros g0 f Hg0 Hf. assert (K := frags_fonts _ _ _ _ _ B (fun st w m Hin => tokens_fonts mut _ _ _ _ _ st w m Hin) g0 f true Hg0 Hf). destruct f; exact (Hreg _ K). }
  destruct B as [B1 B2 B3]. exact (line_sums _ _ _ B2 M R g Hg).
Qed.

(** ** The rows of commands *)
Fixpoint put_words (x : option Q) (items : list (textItem NumQ)) : list word :=
  match items with
  | [] => []
  | it :: items' => mkWord x (SFont (i_sty it)) (i_text it) :: put_words (option_map (fun x => x + item_width tw it)%Q x) items'
  end.
Lemma rows_plain : forall items f x row rest, exists f' x', rows tw f x row (plain_items (F:=NumQ) items ++ rest) = rows tw f' x' (row ++ put_words x items) rest.
Proof.
  induction items as [|it items IH]; intros f x row rest; cbn [plain_items flat_map app put_words].
  - exists f, x. rewrite app_nil_r. reflexivity.
  - cbn [rows]. fold (plain_items (F:=NumQ) items). destruct (IH (SFont (i_sty it)) (option_map (fun x => x + item_width tw it)%Q x) (row ++ [mkWord x (SFont (i_sty it)) (i_text it)]) rest) as (f' & x' & E).
    exists f', x'. unfold item_width in E at 1. rewrite E, <- app_assoc. reflexivity.
Qed.
Lemma put_between : forall items x a b, (a <= x)%Q -> (x + items_width tw items <= b)%Q -> between tw a b (put_words (Some x) items).
Proof.
  induction items as [|it items IH]; intros x a b Ha Hb; cbn [put_words between option_map]; cbn [items_width fold_right] in Hb; [lra|].
  split; [exact Ha|]. apply IH; [apply Qle_refl|]. unfold items_width. lra.
Qed.
Lemma put_end : forall items x, items <> [] -> exists e, row_end tw (put_words (Some x) items) = Some e /\ (e == x + items_width tw items)%Q.
Proof.
  induction items as [|it items IH]; intros x H; [congruence|]. destruct items as [|it' items].
  - cbn. eexists. split; [reflexivity|]. unfold item_width. rewrite Qplus_0_r. reflexivity.
  - destruct (IH (x + item_width tw it)%Q ltac:(discriminate)) as (e & E1 & E2). exists e. split.
    + rewrite <- E1. unfold row_end. cbn [put_words option_map]. set (r := mkWord _ _ _ :: put_words _ items). cbn [rev]. destruct (rev r) eqn:Er; [|reflexivity].
      exfalso. assert (K := f_equal (@List.length word) Er). rewrite rev_length in K. discriminate K.
    + rewrite E2. cbn [items_width fold_right]. lra.
Qed.
Definition known (x : Q) : option Q := if Qle_bool 0 x then Some x else None.
Lemma known_pos : forall x, (0 <= x)%Q -> known x = Some x.
Proof. intros x H. unfold known. apply Qle_bool_iff in H. rewrite H. reflexivity. Qed.
(** The row of a line of text.go. *)
Definition line_x (sty : Styles NumQ) (width x : Q) (line : textLine NumQ) : Q :=
  if beqb (HAlign (SAlign sty)) ($"left") then x
  else if beqb (HAlign (SAlign sty)) ($"center") then (x + (width - l_width line) / inject_Z 2)%Q
  else (x + width - l_width line)%Q.
Lemma rows_line : forall sty width x l f ox rest, In (HAlign (SAlign sty)) [$"left"; $"center"; $"right"] ->
  exists f', rows tw f ox [] (line_cmds (F:=NumQ) sty width x l ++ rest) = put_words (known (line_x sty width x l)) (l_items l) :: rows tw f' None [] rest.
Proof.
  intros sty width x l f ox rest H. unfold line_cmds. rewrite <- !app_assoc.
  assert (E : line_start (F:=NumQ) sty width x l = [Simple (SetX (F:=NumQ) (line_x sty width x l))]).
  { unfold line_start, line_x. destruct H as [<-|[<-|[<-|[]]]]; reflexivity. }
  rewrite E. cbn [app rows]. destruct (rows_plain (l_items l) f (known (line_x sty width x l)) [] ([line_end sty] ++ rest)) as (f' & x' & R).
  unfold known in R at 1. exists f'. etransitivity; [exact R|]. reflexivity.
Qed.
Lemma rows_lines : forall sty width x, In (HAlign (SAlign sty)) [$"left"; $"center"; $"right"] -> forall lines f ox,
  rows tw f ox [] (flat_map (line_cmds (F:=NumQ) sty width x) lines) = map (fun l => put_words (known (line_x sty width x l)) (l_items l)) lines ++ [[]].
Proof.
  intros sty width x H. induction lines as [|l lines IH]; intros f ox; [reflexivity|]. cbn [flat_map map app].
  destruct (rows_line sty width x l f ox (flat_map (line_cmds (F:=NumQ) sty width x) lines) H) as (f' & ->). rewrite IH. reflexivity.
Qed.
Lemma rows_start : forall sty fonts f ox rest, exists f', rows tw f ox [] (start_cmds (F:=NumQ) sty fonts ++ rest) = rows tw f' None [] rest.
Proof.
  intros sty fonts f ox rest. unfold start_cmds. cbn [app rows]. generalize (SFont sty). induction fonts as [|f1 fonts IH]; intros f0; cbn [map app rows]; [exists f0; reflexivity|apply IH].
Qed.
Lemma start_x : forall fs sty (s : PS), fst (getXY (ps_eng (fonts_changed fs (text_state sty s)))) = fst (getXY (ps_eng s)).
Proof.
  assert (Fs : forall fs (p : PS), fst (getXY (ps_eng (fonts_changed fs p))) = fst (getXY (ps_eng p))).
  { induction fs as [|f fs IH]; intros p; [reflexivity|]. cbn [fonts_changed fold_left]. unfold fonts_changed in IH. rewrite IH, font_eng. exact (proj1 (P_font _ _ _ P _ _)). }
  intros fs sty s. rewrite Fs, text_state_eq, !emitted_eng, (P_color _ _ _ P). exact (proj1 (P_font _ _ _ P _ _)).
Qed.
Lemma fits_line : forall width x (l : textLine NumQ) ox, (2 <= List.length (l_items l) -> (width <=? l_width l)%num = false) ->
  match l_items l with [] => True | it :: items => (l_width l == tw (SFont (i_sty it)) (sp :: i_text it) + items_width tw items)%Q end ->
  fits tw width (put_words ox (l_items l)) -> l_items l <> [] /\ (l_width l <= width)%Q /\
    (forall sty, (0 <= x)%Q -> (0 <= line_x sty width x l)%Q /\ (x <= line_x sty width x l)%Q /\ (line_x sty width x l + l_width l <= x + width)%Q).
Proof.
  intros width x l ox H2 HW Hf. destruct (l_items l) as [|it items] eqn:E; [destruct Hf|]. split; [discriminate|].
  assert (K : (l_width l <= width)%Q).
  { destruct items as [|it' items].
    - cbn [put_words fits] in Hf. rewrite HW. cbn [items_width fold_right]. lra.
    - specialize (H2 ltac:(cbn; lia)). apply Qlt_le_weak, Qnot_le_lt. intro K. apply Qle_bool_iff in K. cbn in H2. congruence. }
  split; [exact K|]. intros sty Hx. unfold line_x. destruct (beqb _ _); [repeat split; lra|]. destruct (beqb _ _); [|repeat split; lra].
  change (inject_Z 2) with 2%Q. assert (D : ((width - l_width l) / 2 == (width - l_width l) * (1 # 2))%Q) by (field; discriminate). rewrite D. repeat split; lra.
Qed.

Variable callback : cb -> M eng unit.
Lemma plain_placed : forall iss width sty (s s' : PS), let x := fst (getXY (ps_eng s)) in
  (0 <= x)%Q -> In (HAlign (SAlign sty)) [$"left"; $"center"; $"right"] ->
  Lines.writeText callback mut iss width sty s = Ok tt s' ->
  exists cmds, wrote s s' cmds /\ forall f ox row, In row (rows tw f ox [] cmds) -> fits tw width row ->
    exists l, row = put_words (Some (line_x sty width x l)) (l_items l) /\ l_items l <> [] /\ (l_width l <= width)%Q /\
      (x <= line_x sty width x l)%Q /\ (line_x sty width x l + l_width l <= x + width)%Q /\
      match l_items l with [] => True | it :: items => (l_width l == tw (SFont (i_sty it)) (sp :: i_text it) + items_width tw items)%Q end /\
      forall it, In it (l_items l) -> In (SFont (i_sty it)) (fonts_of mut sty iss).
Proof.
  intros iss width sty s s' x Hx Ha H. destruct (writeText_wrote callback mut printer_stable iss width sty s s' H) as (lines & s1 & E & Wr).
  assert (L := plain_line iss width sty (text_state sty s)). rewrite E in L. assert (L0 := plain_fonts mut printer_stable iss width sty (text_state sty s)). rewrite E in L0. assert (L2 := lines_fit mut printer_stable iss width sty (text_state sty s)). rewrite E in L2.
  assert (X : fst (getXY (ps_eng s1)) = x).
  { destruct (textLines_rules mut printer_stable iss width sty (text_state sty s)) as (ls & gs & E' & _). rewrite E in E'. injection E' as _ ->. apply start_x. }
  rewrite X in Wr. eexists. split; [exact Wr|]. intros f ox row Hr Hf.
  destruct (rows_start sty (text_fonts mut false (currentPage (ps_eng (text_state sty s))) sty iss) f ox (flat_map (line_cmds (F:=NumQ) sty width x) lines)) as (f' & R).
  rewrite R, (rows_lines sty width x Ha) in Hr. apply in_app_or in Hr as [Hr|[<-|[]]]; [|destruct Hf].
  apply in_map_iff in Hr as (l & <- & Hl). destruct (fits_line width x l _ (L2 l Hl) (L l Hl) Hf) as (N & K & A). destruct (A sty Hx) as (A1 & A2 & A3).
  exists l. rewrite (known_pos _ A1). split; [reflexivity|]. split; [exact N|]. split; [exact K|]. split; [exact A2|]. split; [exact A3|]. split; [exact (L l Hl)|exact (fun it => L0 l it Hl)].
Qed.

(** ** Block text *)
Lemma runs_end : forall p acc (s : PS) calls s1, run_calls callback p acc s = Ok calls s1 -> ends p (ps_eng s1).
Proof.
  induction p as [e|c e k IH]; intros acc s calls s1 H; cbn [run_calls] in H.
  - injection H as _ <-. apply Ends_done.
  - destruct (callback c (set_eng e (set_trace [] s))) as [[] s2| |]; try discriminate H. exact (Ends_call _ _ _ _ _ (IH _ _ _ _ _ H)).
Qed.
Lemma write_x : forall t (s s' : PS), write_text callback t s = Ok tt s' -> one_line t -> (fst (getXY (ps_eng s)) + textWidth (ps_eng s) t <= right)%Q ->
  (fst (getXY (ps_eng s')) == fst (getXY (ps_eng s)) + textWidth (ps_eng s) t)%Q.
Proof.
  intros t s s' H Ht Hr. unfold write_text, command in H. destruct (run_calls callback (Engine.writeText t (ps_eng s)) [] s) as [calls s1| |] eqn:E; try discriminate H.
  injection H as <-. exact (P_write _ _ _ P t _ _ Ht Hr (runs_end _ _ _ _ _ E)).
Qed.
Fixpoint spread (gap : Q) (items : list (textItem NumQ)) : Q :=
  match items with [] => 0 | it :: items' => word_width tw it + match items' with [] => 0 | _ => gap + spread gap items' end end%Q.
Lemma spread_nonneg : forall gap items, (0 <= gap)%Q -> (forall it, In it items -> regular tw (SFont (i_sty it))) -> (0 <= spread gap items)%Q.
Proof.
  intros gap items Hg. induction items as [|it items IH]; intros R; [apply Qle_refl|]. specialize (IH (fun i Hi => R i (or_intror Hi))). cbn [spread]. assert (N := R_nonneg _ _ (R it (or_introl eq_refl)) (trim is_sp (i_text it))). unfold word_width. destruct items; lra.
Qed.
Lemma spread_eq : forall gap items, items <> [] -> (spread gap items == words_width tw items + inject_Z (Z.of_nat (List.length items) - 1) * gap)%Q.
Proof.
  intros gap items. induction items as [|it items IH]; intros H; [congruence|]. cbn [spread words_width fold_right]. destruct items as [|it' items].
  - cbn [List.length fold_right]. change (inject_Z (Z.of_nat 1 - 1)) with 0%Q. ring.
  - rewrite (IH ltac:(discriminate)). unfold words_width.
    replace (Z.of_nat (List.length (it :: it' :: items)) - 1)%Z with ((Z.of_nat (List.length (it' :: items)) - 1) + 1)%Z by (cbn [List.length]; lia).
    rewrite (inject_Z_plus (Z.of_nat (List.length (it' :: items)) - 1) 1). change (inject_Z 1) with 1%Q. ring.
Qed.
Lemma spaced_placed : forall gap b, (0 <= gap)%Q -> (b <= right)%Q -> forall items (s s' : PS), (forall it, In it items -> one_line (i_text it) /\ regular tw (SFont (i_sty it))) -> write_spaced callback gap items s = Ok tt s' ->
  let x := fst (getXY (ps_eng s)) in (0 <= x)%Q -> (x + spread gap items <= b)%Q ->
  exists cmds, wrote s s' cmds /\ forall f row rest, exists f' ox' ws, rows tw f (Some x) row (cmds ++ rest) = rows tw f' ox' (row ++ ws) rest /\
    forall a, (a <= x)%Q -> between tw a b ws.
Proof.
  intros gap b Hg Hb. induction items as [|it items IH]; intros s s' Ho H x Hx Hs; cbn [write_spaced] in H.
  - injection H as <-. exists []. split; [apply wrote_nil|]. intros f row rest. exists f, (Some x), []. rewrite app_nil_r. split; [reflexivity|]. intros a Ha. cbn in *. lra.
  - apply bind_ok in H as ([] & s1 & H1 & H). apply lift_ok in H1. rewrite changeFont_eq in H1. injection H1 as <-.
    apply bind_ok in H as ([] & s2 & H2 & H). apply bind_ok in H as (xy & s3 & H3 & H). apply lift_ok in H3. injection H3 as <- <-.
    apply bind_ok in H as ([] & s4 & H4 & H). apply lift_ok in H4. rewrite emit_eq in H4. injection H4 as <-.
    set (f1 := SFont (i_sty it)) in *. set (t := trim is_sp (i_text it)) in *.
    destruct (P_font _ _ _ P f1 (ps_eng s)) as (F2 & _). destruct (Ho it (or_introl eq_refl)) as [Ho1 Ho2]. assert (N := R_nonneg _ _ Ho2 t). change (0 <= tw f1 t)%Q in N. assert (Nr := spread_nonneg gap items Hg (fun i Hi => proj2 (Ho i (or_intror Hi)))).
    cbn [spread] in Hs. change (word_width tw it) with (tw f1 t) in Hs.
    assert (Hr : (x + tw f1 t <= b)%Q) by (destruct items; lra).
    assert (X : (fst (getXY (ps_eng s2)) == x + tw f1 t)%Q).
    { assert (K := write_x t (font_changed f1 s) s2 H2). rewrite font_eng, (P_width _ _ _ P), F2 in K. apply K; [exact (one_line_trim _ Ho1)|]. fold x. lra. }
    set (x1 := (fst (getXY (ps_eng s2)) + gap)%Q) in *. assert (Hx1 : (0 <= x1)%Q) by (unfold x1; rewrite X; lra).
    assert (X1 : fst (getXY (ps_eng (emitted (SetX (F:=NumQ) x1) s2))) = x1) by (rewrite emitted_eng; exact (P_x _ _ _ P x1 _ Hx1)).
    change (write_spaced callback gap items (emitted (SetX (F:=NumQ) x1) s2) = Ok tt s') in H.
    assert (Hs1 : (x1 + spread gap items <= b)%Q \/ items = []).
    { destruct items; [right; reflexivity|left]. unfold x1. rewrite X. lra. }
    destruct Hs1 as [Hs1|E0].
    + destruct (IH _ _ (fun i Hi => Ho i (or_intror Hi)) H ltac:(cbn zeta; rewrite X1; exact Hx1) ltac:(cbn zeta; rewrite X1; exact Hs1)) as (cmds & Wr & R). rewrite X1 in R.
      exists (Simple (ChangeFont f1) :: WriteText t :: Simple (SetX (F:=NumQ) x1) :: cmds). split.
      * apply (wrote_cons _ (font_changed f1 s)); [apply wrote_font|]. apply (wrote_cons _ s2); [exact (wrote_command _ _ _ _ _ H2)|].
        apply (wrote_cons _ (emitted (SetX (F:=NumQ) x1) s2)); [apply wrote_emit|exact Wr].
      * intros f row rest. cbn [app rows option_map]. destruct (R f1 (row ++ [mkWord (Some x) f1 t]) rest) as (f' & ox' & ws & E & Bt).
        assert (Kn : Qle_bool 0 x1 = true) by (apply Qle_bool_iff; exact Hx1). exists f', ox', (mkWord (Some x) f1 t :: ws). split.
        -- etransitivity; [|etransitivity; [exact E|rewrite <- app_assoc; reflexivity]]. f_equal. change (match x1 with q => if Qle_bool 0 q then Some q else None end = Some x1). rewrite Kn. reflexivity.
        -- intros a Ha. cbn [between]. split; [exact Ha|]. apply Bt. unfold x1. rewrite X. lra.
    + subst items. cbn [write_spaced] in H. injection H as <-.
      exists (Simple (ChangeFont f1) :: WriteText t :: Simple (SetX (F:=NumQ) x1) :: []). split.
      * apply (wrote_cons _ (font_changed f1 s)); [apply wrote_font|]. apply (wrote_cons _ s2); [exact (wrote_command _ _ _ _ _ H2)|apply wrote_emit].
      * intros f row rest. cbn [app rows option_map]. eexists _, _, [mkWord (Some x) f1 t]. split; [reflexivity|]. intros a Ha. cbn [between]. split; [exact Ha|exact Hr].
Qed.
Lemma block_lines_placed : forall width x sty, (0 <= x)%Q -> (x + width <= right)%Q -> forall lines (s s' : PS),
  (forall l it, In l lines -> In it (l_items l) -> one_line (i_text it) /\ regular tw (SFont (i_sty it))) ->
  (forall l, In l lines -> (items_width tw (l_items l) <= l_width l)%Q /\ (l_pure l == words_width tw (l_items l))%Q /\
     (2 <= List.length (l_items l) -> (words_width tw (l_items l) + (1 # 10) <= l_width l)%Q /\ (l_width l <= width)%Q)) ->
  write_lines_h callback width x sty lines s = Ok tt s' ->
  exists cmds, wrote s s' cmds /\ forall f ox row, In row (rows tw f ox [] cmds) -> fits tw width row -> between tw x (x + width)%Q row.
Proof.
  intros width x sty Hx Hr. induction lines as [|l lines IH]; intros s s' HO HL H; cbn [write_lines_h] in H.
  - injection H as <-. exists []. split; [apply wrote_nil|]. intros f ox row [<-|[]] [].
  - apply bind_ok in H as ([] & s1 & H1 & H). apply lift_ok in H1. rewrite emit_eq in H1. injection H1 as <-.
    apply bind_ok in H as ([] & s2 & H2 & H). apply bind_ok in H as ([] & s3 & H3 & H). apply lift_ok in H3. rewrite emit_eq in H3. injection H3 as <-.
    destruct (IH _ _ (fun l it Hl => HO l it (or_intror Hl)) (fun l Hl => HL l (or_intror Hl)) H) as (cmds & Wr & R). destruct (HL l (or_introl eq_refl)) as (L1 & L2 & L3).
    assert (X : fst (getXY (ps_eng (emitted (SetX (F:=NumQ) x) s))) = x) by (rewrite emitted_eng; exact (P_x _ _ _ P x _ Hx)).
    assert (Kn : (if Qle_bool 0 x then Some x else None) = Some x) by (apply Qle_bool_iff in Hx; rewrite Hx; reflexivity).
    assert (exists cs, wrote (emitted (SetX (F:=NumQ) x) s) s2 cs /\ forall f rest, exists f' ox' ws, rows tw f (Some x) [] (cs ++ rest) = rows tw f' ox' ws rest /\
              (fits tw width ws -> between tw x (x + width)%Q ws)) as (cs & Wc & Rc).
    { assert (Es : ((Z.of_nat (List.length (l_items l)) - 1 <? 1)%Z || l_paragraph l) = negb (stretched l)).
      { unfold stretched. rewrite negb_andb, negb_involutive. f_equal. destruct (Nat.leb_spec 2 (List.length (l_items l))), (Z.ltb_spec (Z.of_nat (List.length (l_items l)) - 1) 1); try reflexivity; lia. }
      rewrite Es in H2. destruct (stretched l) eqn:St; cbn [negb] in H2.
      - unfold stretched in St. apply andb_prop in St as [St _]. apply Nat.leb_le in St. destruct (L3 St) as [L4 L5].
        assert (Np : (0 < inject_Z (Z.of_nat (List.length (l_items l)) - 1))%Q) by (change 0%Q with (inject_Z 0); rewrite <- Zlt_Qlt; lia).
        set (n := inject_Z (Z.of_nat (List.length (l_items l)) - 1)) in *.
        match type of H2 with write_spaced _ ?g _ _ = _ => set (gap := (g : Q)) in * end.
        assert (G : (n * gap == width - (1 # 10) - words_width tw (l_items l))%Q).
        { rewrite <- L2. unfold gap. cbn. fold n. field. intro K. lra. }
        assert (Gp : (0 <= gap)%Q).
        { apply Qnot_lt_le. intro K. assert (K2 := proj2 (Qmult_lt_l gap 0 n Np) K). lra. }
        assert (Sp : (x + spread gap (l_items l) <= x + width)%Q).
        { rewrite spread_eq; [fold n; lra|]. intro K. rewrite K in St. cbn in St. lia. }
        destruct (spaced_placed gap (x + width)%Q Gp Hr (l_items l) _ _ (fun it => HO l it (or_introl eq_refl)) H2 ltac:(cbn zeta; rewrite X; exact Hx) ltac:(cbn zeta; rewrite X; exact Sp)) as (cs & Wc & Rc). rewrite X in Rc.
        exists cs. split; [exact Wc|]. intros f rest. destruct (Rc f [] rest) as (f' & ox' & ws & E & Bt). exists f', ox', ws. split; [exact E|]. intros _. apply Bt. apply Qle_refl.
      - apply (write_items_wrote callback) in H2. eexists. split; [exact H2|]. intros f rest. destruct (rows_plain (l_items l) f (Some x) [] rest) as (f' & ox' & E).
        exists f', ox', (put_words (Some x) (l_items l)). split; [exact E|]. intros Hf. apply put_between; [apply Qle_refl|].
        destruct (l_items l) as [|it [|it' items]] eqn:El; [destruct Hf| |].
        + cbn [put_words fits] in Hf. cbn [items_width fold_right]. assert (B := R_blank _ _ (proj2 (HO l it (or_introl eq_refl) ltac:(rewrite El; left; reflexivity))) (i_text it)). unfold item_width. lra.
        + destruct (L3 ltac:(cbn; lia)) as [_ L5]. lra. }
    exists (Simple (SetX (F:=NumQ) x) :: cs ++ line_end (F:=NumQ) sty :: cmds). split.
    + apply (wrote_cons _ (emitted (SetX (F:=NumQ) x) s)); [apply wrote_emit|]. apply (wrote_app _ s2); [exact Wc|].
      apply (wrote_cons _ (emitted (LineFeed (F:=NumQ) (LineSpacing (SDim sty))) s2)); [apply wrote_emit|exact Wr].
    + intros f ox row Hrow Hf. change (In row (rows tw f (if Qle_bool 0 x then Some x else None) [] (cs ++ line_end (F:=NumQ) sty :: cmds))) in Hrow. rewrite Kn in Hrow. destruct (Rc f (line_end (F:=NumQ) sty :: cmds)) as (f' & ox' & ws & E & Bt). rewrite E in Hrow.
      cbn [line_end rows] in Hrow. destruct Hrow as [<-|Hrow]; [exact (Bt Hf)|exact (R _ _ _ Hrow Hf)].
Qed.
Variable hyph : bytes -> list bytes.
Hypothesis Hh : forall w, one_line w -> Forall one_line (hyph w).
Lemma block_placed : forall iss width sty (s s' : PS), (forall f, In f (fonts_of mut sty iss) -> regular tw f) -> let x := fst (getXY (ps_eng s)) in
  (0 <= x)%Q -> (x + width <= right)%Q -> writeTextHyphenated callback mut hyph iss width sty s = Ok tt s' ->
  exists cmds, wrote s s' cmds /\ forall f ox row, In row (rows tw f ox [] cmds) -> fits tw width row -> between tw x (x + width)%Q row.
Proof.
  intros iss width sty s s' Hreg x Hx Hr H. unfold writeTextHyphenated in H. apply bind_ok in H as ([] & s1 & H1 & H). apply lift_ok in H1. rewrite emit_eq in H1. injection H1 as <-.
  apply bind_ok in H as ([] & s1 & H1 & H). apply lift_ok in H1. unfold set_text_color in H1. rewrite emit_eq in H1. injection H1 as <-.
  rewrite <- text_state_eq in H.
  apply bind_ok in H as (lines & s2 & H2 & H). apply lift_ok in H2. apply bind_ok in H as (xy & s3 & H3 & H). apply lift_ok in H3. injection H3 as <- <-.
  assert (P1 := block_pure mut hyph tw printer_measures printer_stable iss width sty (text_state sty s)). rewrite H2 in P1.
  assert (P2 := block_line hyph iss width sty (text_state sty s) Hreg). rewrite H2 in P2.
  assert (P3 := block_fit mut hyph printer_stable iss width sty (text_state sty s)). rewrite H2 in P3.
  assert (P4 := block_one_line mut hyph Hh printer_stable iss width sty (text_state sty s)). rewrite H2 in P4.
  assert (P5 := block_fonts mut printer_stable hyph iss width sty (text_state sty s)). rewrite H2 in P5.
  assert (E2 : s2 = fonts_changed (text_fonts mut true (currentPage (ps_eng (text_state sty s))) sty iss) (text_state sty s)).
  { destruct (textLinesHyphenated_rules mut hyph printer_stable iss width sty (text_state sty s)) as (ls & gs & E & _). rewrite H2 in E. injection E as _ ->. reflexivity. }
  assert (X : fst (getXY (ps_eng s2)) = x) by (rewrite E2; apply start_x). rewrite X in H.
  destruct (block_lines_placed width x sty Hx Hr lines s2 s' (fun l it Hl Hi => conj (P4 l it Hl Hi) (Hreg _ (P5 l it Hl Hi)))) as (cmds & Wr & R); [|exact H|].
  - intros l Hl. destruct (P2 l Hl) as [Q1 Q2]. split; [exact Q1|]. split; [exact (proj1 (Forall_forall _ _) P1 l Hl)|]. intros L. split; [exact (Q2 L)|exact (P3 l Hl L)].
  - exists (start_cmds (F:=NumQ) sty (text_fonts mut true (currentPage (ps_eng (text_state sty s))) sty iss) ++ cmds). split.
    + unfold start_cmds. cbn [app]. apply (wrote_cons _ (emitted (ChangeFont (SFont sty)) s)); [apply wrote_emit|]. apply (wrote_cons _ (text_state sty s)); [rewrite text_state_eq; apply wrote_emit|].
      apply (wrote_app _ s2); [|exact Wr]. rewrite E2. apply wrote_fonts.
    + intros f ox row Hrow Hf. destruct (rows_start sty (text_fonts mut true (currentPage (ps_eng (text_state sty s))) sty iss) f ox cmds) as (f' & E). rewrite E in Hrow. exact (R _ _ _ Hrow Hf).
Qed.
Lemma text_placed : forall iss width sty (s s' : PS), (forall f, In f (fonts_of mut sty iss) -> regular tw f) -> let x := fst (getXY (ps_eng s)) in
  (0 <= x)%Q -> (x + width <= right)%Q -> In (HAlign (SAlign sty)) [$"left"; $"center"; $"right"; $"block"] ->
  writeTextFnc callback mut hyph sty iss width sty s = Ok tt s' ->
  exists cmds, wrote s s' cmds /\ forall f ox row, In row (rows tw f ox [] cmds) -> fits tw width row -> between tw x (x + width)%Q row.
Proof.
  intros iss width sty s s' Hreg x Hx Hr Ha H. unfold writeTextFnc in H. destruct (beqb (HAlign (SAlign sty)) ($"block")) eqn:B.
  - exact (block_placed iss width sty s s' Hreg Hx Hr H).
  - assert (Ha' : In (HAlign (SAlign sty)) [$"left"; $"center"; $"right"]).
    { destruct Ha as [E|[E|[E|[E|[]]]]]; [left; exact E|right; left; exact E|right; right; left; exact E|]. rewrite <- E in B. discriminate B. }
    destruct (plain_placed iss width sty s s' Hx Ha' H) as (cmds & Wr & R). exists cmds. split; [exact Wr|]. intros f ox row Hrow Hf.
    destruct (R f ox row Hrow Hf) as (l & -> & N & K & A2 & A3 & W & Ft). apply put_between; [exact A2|].
    destruct (l_items l) as [|it items]; [congruence|]. cbn [items_width fold_right]. unfold items_width in W. assert (Bl := R_blank _ _ (Hreg _ (Ft it (or_introl eq_refl))) (i_text it)). unfold item_width at 1. fold x in A2, A3 |- *. lra.
Qed.
Lemma text_aligned : forall iss width sty (s s' : PS), let x := fst (getXY (ps_eng s)) in
  (0 <= x)%Q -> In (HAlign (SAlign sty)) [$"left"; $"center"; $"right"] ->
  writeTextFnc callback mut hyph sty iss width sty s = Ok tt s' ->
  exists cmds, wrote s s' cmds /\ forall f ox row, In row (rows tw f ox [] cmds) -> fits tw width row ->
    exists a b, row_start row = Some a /\ row_end tw row = Some b /\
      (HAlign (SAlign sty) = $"left" -> (a == x)%Q) /\
      (HAlign (SAlign sty) = $"right" -> (b == x + width - blank_before tw row)%Q) /\
      (HAlign (SAlign sty) = $"center" -> (x + width - b == (a - x) + blank_before tw row)%Q).
Proof.
  intros iss width sty s s' x Hx Ha H. unfold writeTextFnc in H.
  assert (B : beqb (HAlign (SAlign sty)) ($"block") = false) by (destruct Ha as [<-|[<-|[<-|[]]]]; reflexivity). rewrite B in H.
  destruct (plain_placed iss width sty s s' Hx Ha H) as (cmds & Wr & R). exists cmds. split; [exact Wr|]. intros f ox row Hrow Hf.
  destruct (R f ox row Hrow Hf) as (l & -> & N & K & A2 & A3 & W & _). destruct (put_end (l_items l) (line_x sty width x l) N) as (b & E1 & E2).
  assert (S : row_start (put_words (Some (line_x sty width x l)) (l_items l)) = Some (line_x sty width x l)) by (destruct (l_items l); [congruence|reflexivity]).
  exists (line_x sty width x l), b. split; [exact S|]. split; [exact E1|].
  assert (Bl : (blank_before tw (put_words (Some (line_x sty width x l)) (l_items l)) == l_width l - items_width tw (l_items l))%Q).
  { destruct (l_items l) as [|it items]; [congruence|]. cbn [put_words blank_before w_font w_text items_width fold_right]. unfold items_width in W. unfold item_width at 1. lra. }
  fold x in Bl, E2 |- *.
  assert (X : (HAlign (SAlign sty) = $"left" -> line_x sty width x l = x) /\ (HAlign (SAlign sty) = $"right" -> line_x sty width x l = (x + width - l_width l)%Q) /\
              (HAlign (SAlign sty) = $"center" -> (line_x sty width x l == x + (width - l_width l) * (1 # 2))%Q)).
  { unfold line_x. repeat split; intros ->; reflexivity. }
  destruct X as (X1 & X2 & X3). rewrite Bl. split; [|split].
  - intros E. rewrite (X1 E). apply Qeq_refl.
  - intros E. rewrite (X2 E) in E2. lra.
  - intros E. specialize (X3 E). lra.
Qed.
End Measured.
