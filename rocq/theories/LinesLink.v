(** The model of text.go and text-hyph.go breaks lines by the rules. *)
From Coq Require Import Lia.
From Verif Require Import GoStr GoFmt GoStrFacts Num Style Class Text Instr Engine EngineFacts Layout Lines LinesSpec LinesFacts.
From Verif Require TextSpec TextFacts.
Local Open Scope nat_scope.

Section Link.
Context {F : Num} {eng : Engine F}.
Local Notation PS := (PS F eng).
Variable mut : Styled F -> Styles F -> Styles F.
Variable hyph : bytes -> list bytes.
Hypothesis Hpage : page_stable (eng:=eng).

Definition font_changed (f : Font F) (s : PS) : PS := emitted (ChangeFont f) (set_sty (with_font f (ps_sty s)) s).
Definition fonts_changed (fs : list (Font F)) (s : PS) : PS := fold_left (fun s f => font_changed f s) fs s.
Lemma changeFont_eq : forall f (s : PS), changeFont f s = (tt, font_changed f s).
Proof. reflexivity. Qed.
Lemma sbind_font : forall A f (k : unit -> St eng A) s, sbind (changeFont f) k s = k tt (font_changed f s).
Proof. reflexivity. Qed.
Lemma sbind_query : forall A B (q : est eng -> A) (k : A -> St eng B) s, sbind (query q) k s = k (q (ps_eng s)) s.
Proof. reflexivity. Qed.
Lemma sbind_ret : forall A B (a : A) (k : A -> St eng B) s, sbind (sret a) k s = k a s.
Proof. reflexivity. Qed.
Lemma font_eng : forall f (s : PS), ps_eng (font_changed f s) = simple (ChangeFont f) (ps_eng s).
Proof. reflexivity. Qed.
Lemma norm_eq : forall t (s : PS), norm t s = (whitespace_rectified (replace_all t ($"{cp}") (itoa (currentPage (ps_eng s)))), s).
Proof. reflexivity. Qed.

Lemma total_snoc : forall f (l : list (frag F)) x, sum_of f (l ++ [x]) = add (sum_of f l) (f x).
Proof. intros. unfold sum_of. rewrite fold_left_app. reflexivity. Qed.
Lemma items_snoc : forall (l : list (frag F)) x, items_of (l ++ [x]) = items_of l ++ [frag_item (match l with [] => true | _ => false end) x].
Proof. intros [|f l] x; [reflexivity|]. cbn. rewrite map_app. reflexivity. Qed.
Lemma items_empty : forall (l : list (frag F)), items_of l = [] <-> l = [].
Proof. intros [|f l]; split; intro H; try reflexivity; discriminate H. Qed.
Lemma line_text : forall (l : textLine F) cur (w : bytes), l_items l = items_of cur ->
  match l_items l with [] => w | _ => sp :: w end = if (match cur with [] => true | _ => false end : bool) then w else sp :: w.
Proof. intros l [|f cur] w ->; reflexivity. Qed.

Definition rel (lines : list (textLine F)) (curr : textLine F) (x : list (group F) * list (frag F)) : Prop :=
  Forall2 is_line lines (fst x) /\ is_line curr (mkGroup (snd x) Final).
Lemma rel_empty : is_line (@empty_line F) (mkGroup [] Final).
Proof. split; reflexivity. Qed.
Lemma line_any : forall (l : textLine F) fs e e', is_line l (mkGroup fs e) -> is_line l (mkGroup fs e').
Proof. intros. exact H. Qed.

Lemma place_words_rel : forall width st ws lines curr x (s : PS), rel lines curr x ->
  exists lines' curr', place_words width st ws lines curr s = ((lines', curr'), s) /\
    rel lines' curr' (fold_left (step (fun _ => []) width) (map (fun w => TWord st w (textWidth (ps_eng s))) ws) x).
Proof.
  intros width st. induction ws as [|w ws IH]; intros lines curr [gs cur] s [R1 [R2 R3]]; cbn [place_words map fold_left].
  - exists lines, curr. split; [reflexivity|]. split; [exact R1|split; assumption].
  - rewrite sbind_query. cbn [step fst snd g_frags] in *. rewrite R3. unfold overflows at 1.
    destruct (leb width (add (total cur) (textWidth (ps_eng s) (sp :: w)))) eqn:E.
    + apply IH. split; cbn [fst snd].
      * apply Forall2_app; [exact R1|]. constructor; [split; assumption|constructor].
      * split; reflexivity.
    + apply IH. split; cbn [fst snd]; [exact R1|]. split; cbn [l_items l_width g_frags].
      * rewrite items_snoc, R2. f_equal. cbn [frag_item]. rewrite <- R2, (line_text curr cur w R2). reflexivity.
      * unfold total. rewrite total_snoc, ?R3. reflexivity.
Qed.

Lemma piece_words : forall n t, let u := whitespace_rectified (replace_all t ($"{cp}") (itoa n)) in
  Lines.words u = match text_words n t with [] => [[]] | ws => ws end /\ (u = [] <-> text_words n t = []).
Proof.
  intros n t u. assert (N := normal_words u (TextFacts.rectified_normal _)). unfold text_words. rewrite <- TextFacts.rectified_correct. exact N.
Qed.
Lemma place_text_rel : forall width st n t lines curr x (s : PS), rel lines curr x ->
  let u := whitespace_rectified (replace_all t ($"{cp}") (itoa n)) in
  let ws := text_words n t in
  forall rest (k : list (textLine F) * textLine F -> St eng rest),
  exists lines' curr' s',
    match u with [] => k (lines, curr) s
    | _ => sbind (changeFont (SFont st)) (fun _ => sbind (place_words width st (Lines.words u) lines curr) k) s end = k (lines', curr') s' /\
    s' = (match ws with [] => s | _ => font_changed (SFont st) s end) /\
    rel lines' curr' (fold_left (step (fun _ => []) width) (match ws with [] => [] | _ => map (fun w => TWord st w (textWidth (simple (ChangeFont (SFont st)) (ps_eng s)))) ws end) x).
Proof.
  intros width st n t lines curr x s R u ws rest k. destruct (piece_words n t) as [W1 W2]. fold u in W1, W2. fold ws in W1, W2.
  destruct ws as [|w ws'] eqn:Ew.
  - rewrite (proj2 W2 eq_refl). exists lines, curr, s. split; [reflexivity|]. split; [reflexivity|exact R].
  - destruct u as [|c u']; [exfalso; assert (G := proj1 W2 eq_refl); discriminate G|].
    rewrite sbind_font, W1. destruct (place_words_rel width st (w :: ws') lines curr x (font_changed (SFont st) s) R) as (lines' & curr' & E & R').
    exists lines', curr', (font_changed (SFont st) s). split; [|split; [reflexivity|exact R']]. unfold sbind. rewrite E. reflexivity.
Qed.

Lemma place_pieces_rel : forall width sty iss lines curr x (s : PS), rel lines curr x ->
  let n := currentPage (ps_eng s) in
  exists lines' curr', place_pieces mut width sty iss lines curr s = ((lines', curr'), fonts_changed (text_fonts mut false n sty iss) s) /\
    rel lines' curr' (fold_left (step (fun _ => []) width) (tokens mut false n sty iss (ps_eng s)) x).
Proof.
  intros width sty. induction iss as [|is iss IH]; intros lines curr x s R n.
  { exists lines, curr. split; [reflexivity|exact R]. }
  assert (Text : forall st t, exists lines' curr',
    sbind (norm t) (fun u => match u with [] => place_pieces mut width sty iss lines curr
       | _ => sbind (changeFont (SFont st)) (fun _ => sbind (place_words width st (Lines.words u) lines curr) (fun r => place_pieces mut width sty iss (fst r) (snd r))) end) s
    = ((lines', curr'), fonts_changed (match text_words n t with [] => text_fonts mut false n sty iss | _ => SFont st :: text_fonts mut false n sty iss end) s) /\
    rel lines' curr' (fold_left (step (fun _ => []) width) (match text_words n t with [] => tokens mut false n sty iss (ps_eng s)
       | ws => let e' := simple (ChangeFont (SFont st)) (ps_eng s) in map (fun w => TWord st w (textWidth e')) ws ++ tokens mut false n sty iss e' end) x)).
  { intros st t. unfold sbind at 1. rewrite norm_eq. fold n.
    destruct (place_text_rel width st n t lines curr x s R _ (fun r => place_pieces mut width sty iss (fst r) (snd r))) as (l1 & c1 & s1 & E1 & E2 & R1).
    destruct (IH l1 c1 _ s1 R1) as (l2 & c2 & E3 & R2).
    assert (En : currentPage (ps_eng s1) = n). { rewrite E2. destruct (text_words n t); [reflexivity|]. rewrite font_eng. apply Hpage. }
    rewrite En in *. exists l2, c2. split.
    - refine (eq_trans _ (eq_trans E1 _)); [destruct (whitespace_rectified _); reflexivity|].
      cbn [fst snd]. rewrite E3, E2. destruct (text_words n t); reflexivity.
    - rewrite E2 in R2. destruct (text_words n t) as [|w ws]; [exact R2|]. cbv zeta. rewrite fold_left_app. exact R2. }
  destruct is; cbn [place_pieces tokens text_fonts reading negb andb]; unfold read_piece; rewrite ?sbind_ret; try (apply IH; exact R).
  - destruct (Text sty text) as (l & c & E & R'). exists l, c. split; [|destruct (text_words n text); exact R'].
    refine (eq_trans (eq_trans _ E) _); [reflexivity|]. destruct (text_words n text); reflexivity.
  - destruct (Text (mut st sty) text) as (l & c & E & R'). exists l, c. split; [|destruct (text_words n text); exact R'].
    refine (eq_trans (eq_trans _ E) _); [reflexivity|]. destruct (text_words n text); reflexivity.
  - cbn [fold_left]. apply IH. destruct x as [gs cur], R as [R1 R2]. split; cbn [fst snd step].
    + apply Forall2_app; [exact R1|]. constructor; [exact R2|constructor].
    + apply rel_empty.
Qed.

Lemma textLines_rules : forall iss width sty (s : PS),
  let n := currentPage (ps_eng s) in
  exists lines gs, textLines mut iss width sty s = (lines, fonts_changed (text_fonts mut false n sty iss) s) /\
    Forall2 is_line lines gs /\ broken_into (fun _ => []) width (tokens mut false n sty iss (ps_eng s)) gs.
Proof.
  intros iss width sty s n. unfold textLines.
  destruct (place_pieces_rel width sty iss [] empty_line ([], []) s) as (lines & curr & E & R1 & R2); [split; [constructor|apply rel_empty]|].
  assert (B := layout_ok (fun _ => []) width (tokens mut false n sty iss (ps_eng s))).
  fold n in E, R1, R2. destruct (fold_left _ _ _) as [gs cur]. cbn [fst snd] in *.
  exists (match l_items curr with [] => lines | _ => lines ++ [curr] end), (finish (gs, cur)).
  split; [unfold sbind; rewrite E; reflexivity|]. split; [|exact B]. cbn [finish]. assert (Ei := proj1 R2). cbn [g_frags] in Ei. rewrite Ei.
  destruct cur as [|f cur]; cbn [items_of]; [exact R1|]. apply Forall2_app; [exact R1|]. constructor; [exact R2|constructor].
Qed.

(** ** text-hyph.go *)
Lemma try_parts_eq : forall parts t width i (s : PS),
  try_parts parts (sub width t) i s =
  (option_map (fun k => (head_text (firstn k parts), List.concat (skipn k parts))) (best width parts t (textWidth (ps_eng s)) i), s).
Proof.
  intros parts t width. induction i as [|i IH]; intros s; cbn [try_parts best]; [reflexivity|].
  rewrite sbind_query. change (sp :: List.concat (firstn (i + 1) parts) ++ [hyphen]) with (head_text (firstn (i + 1) parts)).
  unfold head_fits. destruct (leb _ _); [reflexivity|apply IH].
Qed.
Lemma tryHyphenate_eq : forall width w t (s : PS),
  tryHyphenate hyph width w t s =
  (option_map (fun k => (head_text (firstn k (hyph w)), List.concat (skipn k (hyph w)))) (cut hyph width w t (textWidth (ps_eng s))), s).
Proof.
  intros width w t s. unfold tryHyphenate, cut. destruct (List.length (hyph w) <? 2); [reflexivity|]. apply try_parts_eq.
Qed.

Definition rel_h (lines : list (textLine F)) (curr : textLine F) (x : list (group F) * list (frag F)) : Prop :=
  Forall2 is_block_line lines (fst x) /\ is_block_line curr (mkGroup (snd x) Final) /\
  map l_paragraph lines = block_flags (fst x) /\ l_paragraph curr = false /\ (forall g, In g (fst x) -> g_end g <> Final).
Lemma rel_h_empty : is_block_line (@empty_line F) (mkGroup [] Final).
Proof. split; [split|]; reflexivity. Qed.

Lemma flags_snoc : forall gs (g : group F), (forall g, In g gs -> g_end g <> Final) -> g_end g = Wrapped -> block_flags (gs ++ [g]) = block_flags gs ++ [false].
Proof.
  induction gs as [|g0 gs IH]; intros g Hf Hw; cbn [block_flags app]; [unfold is_final; rewrite Hw; reflexivity|].
  rewrite (IH g (fun g Hg => Hf g (or_intror Hg)) Hw). f_equal. destruct gs as [|g1 gs]; cbn [app]; [|reflexivity].
  unfold is_broken. rewrite Hw. reflexivity.
Qed.
Lemma flags_broken : forall gs (g : group F), g_end g = Broken -> gs <> [] ->
  block_flags (gs ++ [g]) = removelast (block_flags gs) ++ [true; false].
Proof.
  induction gs as [|g0 gs IH]; intros g Hb Hn; [congruence|]. cbn [block_flags app]. destruct gs as [|g1 gs].
  - cbn. unfold is_broken, is_final. rewrite Hb. reflexivity.
  - rewrite (IH g Hb ltac:(discriminate)). cbn [app]. destruct (block_flags (g1 :: gs)) as [|b bs] eqn:E; [discriminate E|]. reflexivity.
Qed.
Lemma mark_last_rel : forall (lines : list (textLine F)) gs, Forall2 is_block_line lines gs -> Forall2 is_block_line (mark_last lines) gs.
Proof.
  intros lines gs H. unfold mark_last. destruct (rev lines) as [|l ls] eqn:E.
  - apply (f_equal (@rev _)) in E. rewrite rev_involutive in E. subst lines. exact H.
  - apply (f_equal (@rev _)) in E. rewrite rev_involutive in E. subst lines. cbn [rev] in H.
    apply Forall2_app_inv_l in H as (g1 & g2 & H1 & H2 & ->). apply Forall2_app; [exact H1|].
    inversion H2 as [|? g ? ? Hg Hn]; subst. inversion Hn; subst. constructor; [exact Hg|constructor].
Qed.
Lemma mark_last_flags : forall (lines : list (textLine F)), map l_paragraph (mark_last lines) =
  match lines with [] => [] | _ => removelast (map l_paragraph lines) ++ [true] end.
Proof.
  intros lines. unfold mark_last. destruct (rev lines) as [|l ls] eqn:E; apply (f_equal (@rev _)) in E; rewrite rev_involutive in E; subst lines; [reflexivity|].
  cbn [rev]. rewrite !map_app. cbn [map l_paragraph]. rewrite removelast_app by discriminate. cbn. rewrite app_nil_r. destruct (rev ls); reflexivity.
Qed.

Lemma place_words_h_rel : forall width st ws lines curr x (s : PS), rel_h lines curr x ->
  exists lines' curr', place_words_h hyph width st ws lines curr s = ((lines', curr'), s) /\
    rel_h lines' curr' (fold_left (step hyph width) (map (fun w => TWord st w (textWidth (ps_eng s))) ws) x).
Proof.
  intros width st. induction ws as [|w ws IH]; intros lines curr [gs cur] s (R1 & ((R2 & R3) & R4) & R5 & R6 & R7); cbn [place_words_h map fold_left].
  - exists lines, curr. split; [reflexivity|]. split; [exact R1|]. split; [split; [split|]; assumption|]. auto.
  - rewrite !sbind_query. cbn [step fst snd g_frags] in *. rewrite R3. unfold overflows at 1.
    destruct (leb width (add (total cur) (textWidth (ps_eng s) (sp :: w)))) eqn:E.
    + unfold sbind at 1. unfold sbind at 1. rewrite tryHyphenate_eq. destruct (cut hyph width w (total cur) (textWidth (ps_eng s))) as [k|]; cbn [option_map].
      * rewrite !sbind_query. cbv beta iota delta [sret]. apply IH. split; cbn [fst snd].
        -- apply Forall2_app; [exact R1|]. constructor; [|constructor]. split; [split|]; cbn [l_items l_width l_pure g_frags].
           ++ rewrite items_snoc, R2. f_equal.
           ++ unfold total. rewrite total_snoc, ?R3. reflexivity.
           ++ rewrite total_snoc, ?R4. reflexivity.
        -- split; [split; [split|]; reflexivity|]. rewrite map_app, flags_snoc, R5 by (exact R7 || reflexivity). cbn [map l_paragraph]. rewrite R6.
           split; [reflexivity|]. split; [reflexivity|]. intros g Hg. apply in_app_or in Hg as [Hg|[<-|[]]]; [exact (R7 g Hg)|discriminate].
      * cbv beta iota delta [sret]. apply IH. split; cbn [fst snd].
        -- apply Forall2_app; [exact R1|]. constructor; [|constructor]. split; [split|]; assumption.
        -- split; [split; [split|]; reflexivity|]. rewrite map_app, flags_snoc, R5 by (exact R7 || reflexivity). cbn [map]. rewrite R6.
           split; [reflexivity|]. split; [reflexivity|]. intros g Hg. apply in_app_or in Hg as [Hg|[<-|[]]]; [exact (R7 g Hg)|discriminate].
    + rewrite sbind_ret. apply IH. split; cbn [fst snd]; [exact R1|]. split; [|auto]. split; [split|]; cbn [l_items l_width l_pure g_frags].
      * rewrite items_snoc, R2. f_equal. cbn [frag_item]. rewrite <- R2, (line_text curr cur w R2). reflexivity.
      * unfold total. rewrite total_snoc, ?R3. reflexivity.
      * rewrite total_snoc, ?R4. reflexivity.
Qed.

Lemma place_pieces_h_rel : forall width sty iss lines curr x (s : PS), rel_h lines curr x ->
  let n := currentPage (ps_eng s) in
  exists lines' curr', place_pieces_h mut hyph width sty iss lines curr s = ((lines', curr'), fonts_changed (text_fonts mut true n sty iss) s) /\
    rel_h lines' curr' (fold_left (step hyph width) (tokens mut true n sty iss (ps_eng s)) x).
Proof.
  intros width sty. induction iss as [|is iss IH]; intros lines curr x s R n.
  { exists lines, curr. split; [reflexivity|exact R]. }
  assert (Text : forall st t, exists lines' curr',
    sbind (norm t) (fun u => sbind (changeFont (SFont st)) (fun _ => sbind (place_words_h hyph width st (Lines.words u) lines curr) (fun r => place_pieces_h mut hyph width sty iss (fst r) (snd r)))) s
    = ((lines', curr'), fonts_changed (SFont st :: text_fonts mut true n sty iss) s) /\
    rel_h lines' curr' (fold_left (step hyph width) (let e' := simple (ChangeFont (SFont st)) (ps_eng s) in
       map (fun w => TWord st w (textWidth e')) (match text_words n t with [] => [[]] | ws => ws end) ++ tokens mut true n sty iss e') x)).
  { intros st t. unfold sbind at 1. rewrite norm_eq. fold n. rewrite sbind_font. destruct (piece_words n t) as [W1 _]. rewrite W1.
    destruct (place_words_h_rel width st (match text_words n t with [] => [[]] | ws => ws end) lines curr x (font_changed (SFont st) s) R) as (l1 & c1 & E1 & R1).
    destruct (IH l1 c1 _ (font_changed (SFont st) s) R1) as (l2 & c2 & E2 & R2). rewrite font_eng, Hpage in E2, R2. fold n in E2, R2.
    exists l2, c2. split.
    - unfold sbind. rewrite E1. exact E2.
    - cbv zeta. rewrite fold_left_app. exact R2. }
  destruct is; cbn [place_pieces_h tokens text_fonts reading negb andb]; unfold read_piece; rewrite ?sbind_ret; try (apply IH; exact R).
  - destruct (Text sty text) as (l & c & E & R'). exists l, c. split; [|destruct (text_words n text); exact R'].
    refine (eq_trans (eq_trans _ E) _); reflexivity.
  - destruct (Text (mut st sty) text) as (l & c & E & R'). exists l, c. split; [|destruct (text_words n text); exact R'].
    refine (eq_trans (eq_trans _ E) _); reflexivity.
  - cbn [fold_left]. apply IH. destruct x as [gs cur], R as (R1 & R2 & R5 & R6 & R7). cbn [fst snd] in *. split; cbn [fst snd step].
    + apply Forall2_app; [apply mark_last_rel; exact R1|]. constructor; [exact R2|constructor].
    + split; [apply rel_h_empty|]. split; [|split; [reflexivity|]].
      * rewrite map_app, mark_last_flags. cbn [map]. rewrite R6, R5. destruct lines as [|l0 lines].
        -- inversion R1; subst. reflexivity.
        -- rewrite flags_broken; [|reflexivity|intros ->; inversion R1]. rewrite <- app_assoc. reflexivity.
      * intros g Hg. apply in_app_or in Hg as [Hg|[<-|[]]]; [exact (R7 g Hg)|discriminate].
Qed.

Lemma flags_final : forall gs (g : group F), (forall g, In g gs -> g_end g <> Final) -> g_end g = Final -> block_flags (gs ++ [g]) = block_flags gs ++ [true].
Proof.
  induction gs as [|g0 gs IH]; intros g Hf Hw; cbn [block_flags app]; [unfold is_final; rewrite Hw; reflexivity|].
  rewrite (IH g (fun g Hg => Hf g (or_intror Hg)) Hw). f_equal. destruct gs as [|g1 gs]; cbn [app]; [|reflexivity].
  unfold is_broken. rewrite Hw. reflexivity.
Qed.
Lemma textLinesHyphenated_rules : forall iss width sty (s : PS),
  let n := currentPage (ps_eng s) in
  exists lines gs, textLinesHyphenated mut hyph iss width sty s = (lines, fonts_changed (text_fonts mut true n sty iss) s) /\
    Forall2 is_block_line lines gs /\ map l_paragraph lines = block_flags gs /\
    broken_into hyph width (tokens mut true n sty iss (ps_eng s)) gs.
Proof.
  intros iss width sty s n. unfold textLinesHyphenated.
  destruct (place_pieces_h_rel width sty iss [] empty_line ([], []) s) as (lines & curr & E & R1 & R2 & R5 & R6 & R7).
  { split; [constructor|]. split; [apply rel_h_empty|]. split; [reflexivity|]. split; [reflexivity|]. intros g []. }
  assert (B := layout_ok hyph width (tokens mut true n sty iss (ps_eng s))).
  fold n in E, R1, R2, R5, R7. destruct (fold_left _ _ _) as [gs cur]. cbn [fst snd] in *.
  exists (match l_items curr with [] => lines | _ => lines ++ [mkLine (l_items curr) (l_width curr) (l_pure curr) true] end), (finish (gs, cur)).
  split; [unfold sbind; rewrite E; reflexivity|]. rewrite and_assoc || idtac. assert (Ei := proj1 (proj1 R2)). cbn [g_frags] in Ei. rewrite Ei.
  split; [|split; [|exact B]]; cbn [finish]; destruct cur as [|f cur]; cbn [items_of].
  - exact R1.
  - apply Forall2_app; [exact R1|]. constructor; [|constructor]. destruct R2 as [[R2 R3] R4]. split; [split|]; [|exact R3|exact R4]. reflexivity.
  - exact R5.
  - rewrite map_app, flags_final, R5 by (exact R7 || reflexivity). reflexivity.
Qed.
End Link.
