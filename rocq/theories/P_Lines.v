(** Properties C45-C54 and C66: line breaking, block text, heights and writing.

    [textLines mut iss width sty s] breaks the text with the instructions [iss] into lines of the
    given width in a state [s] of the Processor (text.go); [textLinesHyphenated] does so for
    block text with a hyphenator [hyph] (text-hyph.go). Engines are arbitrary, except that
    changing the font must not change the page number ([page_stable]). *)
From Coq Require Import QArith Lia.
From Verif Require Import GoStr GoFmt Num Style Class Instr Engine Layout Lines LinesSpec LinesView LinesThms WriteSpec WriteFacts WriteThms LinesWit PageSpec PageFacts Proc RefEngine ProcView.
From Verif Require Import Hyph HyphBuiltin.
Local Open Scope nat_scope.

(** C45: the lines hold exactly the words of the texts, in order, each with its style. *)
Theorem C45_words : forall (F : Num) (eng : Engine F) mut, page_stable (eng:=eng) ->
  forall iss width sty (s : PS F eng), let '(lines, _) := textLines mut iss width sty s in
  flat_map line_words lines = flat_map (instr_words mut (currentPage (ps_eng s)) sty) iss /\ Forall spaced lines.
Proof. exact @lines_words. Qed.
Print Assumptions C45_words.
Example C45_example : page_stable (eng:=RefEngine) /\
  show (ref_lines [ITextBlock ($"  aa bbb"); ILineBreak; ITextBlock ($"cc dd e")] 8) = [[$"aa"; $" bbb"]; [$"cc"; $" dd"]; [$"e"]].
Proof. split; [exact ref_stable|vm_compute; reflexivity]. Qed.

(** C46: no line with two words or more reaches the available width. *)
Theorem C46_fits : forall (F : Num) (eng : Engine F) mut, page_stable (eng:=eng) ->
  forall iss width sty (s : PS F eng), let '(lines, _) := textLines mut iss width sty s in
  forall l, In l lines -> 2 <= List.length (l_items l) -> (width <=? l_width l)%num = false.
Proof. exact @lines_fit. Qed.
Print Assumptions C46_fits.
(** C46: a line is begun only by a line break, or by a word that does not fit on the line before
    it; the words are not divided (LinesSpec.v). *)
Theorem C46_greedy : forall (F : Num) (eng : Engine F) mut, page_stable (eng:=eng) ->
  forall iss width sty (s : PS F eng), let '(lines, _) := textLines mut iss width sty s in
  exists gs, Forall2 is_line lines gs /\
    broken_into (fun _ => []) width (tokens (eng:=eng) mut false (currentPage (ps_eng s)) sty iss (ps_eng s)) gs.
Proof. exact @lines_rules. Qed.
Print Assumptions C46_greedy.
Example C46_example : map l_width (ref_lines [ITextBlock ($"aaa bbb ccc")] 9) = [8; 4]%Q.
Proof. vm_compute. reflexivity. Qed.

(** C47 fails: a word wider than the line is preceded by a blank line. *)
Theorem C47_refuted : exists word, show (ref_lines [ITextBlock word] 4) = [[]; [word]].
Proof. exists ($"abcdef"). vm_compute. reflexivity. Qed.
Print Assumptions C47_refuted.
(** It holds for texts whose words all fit on a line of their own. *)
Theorem C47_blank_partial : forall (F : Num) (eng : Engine F) mut, page_stable (eng:=eng) ->
  forall iss width sty (s : PS F eng), words_fit mut false (currentPage (ps_eng s)) sty iss (ps_eng s) width ->
  let '(lines, _) := textLines mut iss width sty s in
  exists gs, Forall2 is_line lines gs /\
    broken_into (fun _ => []) width (tokens (eng:=eng) mut false (currentPage (ps_eng s)) sty iss (ps_eng s)) gs /\
    Forall2 (fun l g => l_items l = [] -> g_end g = Broken) lines gs.
Proof. exact @lines_blank_rules. Qed.
Print Assumptions C47_blank_partial.
Theorem C47_no_breaks_partial : forall (F : Num) (eng : Engine F) mut, page_stable (eng:=eng) ->
  forall iss width sty (s : PS F eng), words_fit mut false (currentPage (ps_eng s)) sty iss (ps_eng s) width ->
  ~ In ILineBreak iss -> let '(lines, _) := textLines mut iss width sty s in Forall (fun l => l_items l <> []) lines.
Proof. exact @lines_blank. Qed.
Print Assumptions C47_no_breaks_partial.
Example C47_example : words_fit (eng:=RefEngine) same_style false 1 DefaultStyle [ITextBlock ($"aa bbb cc")] (ps_eng ref_state) (8%Q : NumQ) /\
  show (ref_lines [ITextBlock ($"aa bbb cc")] 8) = [[$"aa"; $" bbb"]; [$"cc"]].
Proof.
  split; [|vm_compute; reflexivity]. intros st w m H. cbn in H.
  repeat (destruct H as [H|H]; [injection H as <- <- <-; vm_compute; reflexivity|]). destruct H.
Qed.

(** C48 fails with the built-in English patterns: "applications" loses its last letter. *)
Theorem C48_refuted : exists pl iss width, new_en_us (fun _ => false) = Some pl /\
  In "s"%char (text_letters same_style 1 DefaultStyle iss) /\
  forall c, In c (flat_map line_letters (ref_block (fun w => match hyphenate (fun r => r) pl w with Some ps => ps | None => [] end) iss width)) -> c <> "s"%char.
Proof. exact letters_lost. Qed.
Print Assumptions C48_refuted.
(** It holds for hyphenators that lose nothing: the letters of the lines, without a hyphen at the
    end of some of them but the last, are those of the text. *)
Theorem C48_letters_partial : forall (F : Num) (eng : Engine F) mut, page_stable (eng:=eng) ->
  forall hyph iss width sty (s : PS F eng), lossless hyph mut (currentPage (ps_eng s)) sty iss ->
  let '(lines, _) := textLinesHyphenated mut hyph iss width sty s in
  exists ps, Forall2 (fun l p => unhyphenated l (fst p) (snd p)) lines ps /\
    flat_map snd ps = text_letters mut (currentPage (ps_eng s)) sty iss /\
    forall a p, ps = a ++ [p] -> fst p = false.
Proof. exact @lines_letters. Qed.
Print Assumptions C48_letters_partial.
(** For every hyphenator: words are divided between its parts and nowhere else, and only if
    they do not fit, as late as possible (LinesSpec.v). *)
Theorem C48_rules : forall (F : Num) (eng : Engine F) mut hyph, page_stable (eng:=eng) ->
  forall iss width sty (s : PS F eng), let '(lines, _) := textLinesHyphenated mut hyph iss width sty s in
  exists gs, Forall2 is_block_line lines gs /\
    broken_into hyph width (tokens (eng:=eng) mut true (currentPage (ps_eng s)) sty iss (ps_eng s)) gs /\
    map l_paragraph lines = block_flags gs.
Proof. exact @marks. Qed.
Print Assumptions C48_rules.
Example C48_example : show (ref_block (fun w => if beqb w ($"banana") then [$"ba"; $"na"; $"na"] else [w]) [ITextBlock ($"aa banana cc")] 9)
  = [[$"aa"; $" bana-"]; [$"na"; $" cc"]].
Proof. vm_compute. reflexivity. Qed.

(** C49: a block line with two items or more is no wider than the available width. *)
Theorem C49_block_fits : forall (eng : Engine NumQ) mut hyph, page_stable (eng:=eng) ->
  forall iss width sty (s : PS NumQ eng), let '(lines, _) := textLinesHyphenated mut hyph iss width sty s in
  forall l, In l lines -> 2 <= List.length (l_items l) -> (l_width l <= width)%Q.
Proof. exact @block_fit. Qed.
Print Assumptions C49_block_fits.
Example C49_example : map l_width (ref_block (fun w => if beqb w ($"banana") then [$"ba"; $"na"; $"na"] else [w]) [ITextBlock ($"aa banana cc")] 9) = [9; 5]%Q.
Proof. vm_compute. reflexivity. Qed.

(** C50: on engines with exact cursor arithmetic (WriteSpec.v), a stretched line has equal gaps
    such that its last word ends 0.1 units before the right edge. *)
Theorem C50_filled : forall (eng : Engine NumQ) mut hyph tw fh font, writer eng tw fh font ->
  forall callback iss width sty (s s' : PS NumQ eng), writeTextHyphenated callback mut hyph iss width sty s = Ok tt s' ->
  exists lines s1 css, textLinesHyphenated mut hyph iss width sty (text_state sty s) = (lines, s1) /\
    fst (getXY (ps_eng s1)) = fst (getXY (ps_eng s)) /\
    Forall2 (filled_cmds tw width sty (fst (getXY (ps_eng s)))) lines css /\
    wrote s s' (start_cmds (F:=NumQ) sty (text_fonts mut true (currentPage (ps_eng s)) sty iss) ++ List.concat css).
Proof. exact @text_filled. Qed.
Print Assumptions C50_filled.
Example C50_example : writer LineEngine (fun _ s => inject_Z (Z.of_nat (List.length s))) (fun f => PointSize f) r_font /\
  (map stretched (ref_block (fun w => [w]) [ITextBlock ($"aa bb cc dd")] 11)) = [true; false].
Proof. split; [exact line_engine_writer|vm_compute; reflexivity]. Qed.

(** C51 fails both ways: the line before a line break is stretched, and a line that was wrapped
    is not if a line break ends the next one. *)
Theorem C51_refuted :
  show (ref_block (fun w => [w]) [ITextBlock ($"aa bb"); ILineBreak; ITextBlock ($"cc dd")] 80) = [[$"aa"; $" bb"]; [$"cc"; $" dd"]] /\
  map stretched (ref_block (fun w => [w]) [ITextBlock ($"aa bb"); ILineBreak; ITextBlock ($"cc dd")] 80) = [true; false] /\
  show (ref_block (fun w => [w]) [ITextBlock ($"aa bb cc dd"); ILineBreak; ITextBlock ($"ee")] 8) = [[$"aa"; $" bb"]; [$"cc"; $" dd"]; [$"ee"]] /\
  map stretched (ref_block (fun w => [w]) [ITextBlock ($"aa bb cc dd"); ILineBreak; ITextBlock ($"ee")] 8) = [false; true; false].
Proof. vm_compute. repeat split. Qed.
Print Assumptions C51_refuted.
(** It holds without line breaks: the last line is marked and no other. Which lines are marked
    in general is [block_flags] in C48_rules. *)
Theorem C51_last_partial : forall (F : Num) (eng : Engine F) mut hyph, page_stable (eng:=eng) ->
  forall iss width sty (s : PS F eng), ~ In ILineBreak iss ->
  let '(lines, _) := textLinesHyphenated mut hyph iss width sty s in
  forall a l b, lines = a ++ l :: b -> l_paragraph l = match b with [] => true | _ => false end.
Proof. exact @marks_without_breaks. Qed.
Print Assumptions C51_last_partial.
Example C51_example : map l_paragraph (ref_block (fun w => [w]) [ITextBlock ($"aa bb cc dd ee")] 8) = [false; false; true].
Proof. vm_compute. reflexivity. Qed.

(** C52: writing moves the cursor down by the height measured before (in any state on the same
    page) and the spacing of the last line. *)
Theorem C52_height : forall (eng : Engine NumQ) mut hyph tw fh font, writer eng tw fh font ->
  forall callback h iss width (sty : Styles NumQ) (s s0 s' : PS NumQ eng), (0 <= LineSpacing (SDim sty) * h)%Q ->
  (fh (SFont sty) = h /\ forall f, In f (text_fonts mut (beqb (HAlign (SAlign sty)) ($"block")) (currentPage (ps_eng s)) sty iss) -> fh f = h) ->
  currentPage (ps_eng s0) = currentPage (ps_eng s) ->
  writeTextFnc callback mut hyph sty iss width sty s = Ok tt s' ->
  (snd (getXY (ps_eng s')) == snd (getXY (ps_eng s)) + (fst (textHeightFnc mut hyph sty iss width sty s0) + (LineSpacing (SDim sty) - 1) * h))%Q.
Proof. exact @written_height. Qed.
Print Assumptions C52_height.
(** Three lines of height 12 with spacing 3/2: measured 2 * 18 + 12, written 3 * 18. *)
Example C52_example :
  let s := mkPS (eng:=LineEngine) (mkRS 1 10 10 ref_font false None) DefaultStyle false [] in
  let iss := [ITextBlock ($"aa bbb cc dd"); IParagraph no_style ($"ee fff")] in
  (0 <= LineSpacing (SDim (@DefaultStyle NumQ)) * 12)%Q /\
  (fst (textHeightFnc (eng:=LineEngine) same_style (fun w => [w]) DefaultStyle iss (8%Q : NumQ) DefaultStyle s) == 48)%Q /\
  match writeTextFnc (eng:=LineEngine) (fun _ => ret tt) same_style (fun w => [w]) DefaultStyle iss (8%Q : NumQ) DefaultStyle s with
  | Ok tt s' => (snd (@getXY NumQ LineEngine (ps_eng s')) == 64)%Q | _ => False end.
Proof. vm_compute. split; [discriminate|]. split; reflexivity. Qed.

(** C53 fails: an empty text has a negative height. *)
Theorem C53_refuted : (fst (textHeightFnc (eng:=RefEngine) same_style (fun w => [w]) DefaultStyle [] (80%Q : NumQ) DefaultStyle ref_state) == -6)%Q.
Proof. vm_compute. reflexivity. Qed.
Print Assumptions C53_refuted.
(** It holds for texts with a word or a line break, and for line spacings up to 1. *)
Theorem C53_height_partial : forall (eng : Engine NumQ) mut hyph, page_stable (eng:=eng) -> (forall e : est eng, 0 <= fontHeight e)%Q ->
  forall iss width (sty : Styles NumQ) (s : PS NumQ eng), (0 <= LineSpacing (SDim sty))%Q ->
  (LineSpacing (SDim sty) <= 1)%Q \/ (exists is, In is iss /\ (is = ILineBreak \/ instr_words mut (currentPage (ps_eng s)) sty is <> [])) ->
  (0 <= fst (textHeightFnc mut hyph sty iss width sty s))%Q.
Proof. exact @height_nonneg. Qed.
Print Assumptions C53_height_partial.
Example C53_example : instr_words same_style 1 DefaultStyle (ITextBlock ($" aa ")) <> [].
Proof. vm_compute. discriminate. Qed.

(** C54: a text is written with one command per word, preceded by the font of the word; every
    line begins at the position given by the alignment and ends with one line feed. *)
Theorem C54_text : forall (F : Num) (eng : Engine F) callback mut, page_stable (eng:=eng) ->
  forall iss width sty (s s' : PS F eng), Lines.writeText callback mut iss width sty s = Ok tt s' ->
  exists lines s1, textLines mut iss width sty (text_state sty s) = (lines, s1) /\
    wrote s s' (start_cmds sty (text_fonts mut false (currentPage (ps_eng (text_state sty s))) sty iss) ++
                flat_map (line_cmds sty width (fst (getXY (ps_eng s1)))) lines).
Proof. exact @writeText_wrote. Qed.
Print Assumptions C54_text.
Theorem C54_block_text : forall (F : Num) (eng : Engine F) callback mut, page_stable (eng:=eng) ->
  forall hyph iss width sty (s s' : PS F eng), writeTextHyphenated callback mut hyph iss width sty s = Ok tt s' ->
  exists lines s1 css, textLinesHyphenated mut hyph iss width sty (text_state sty s) = (lines, s1) /\
    Forall2 (block_cmds sty (fst (getXY (ps_eng s1)))) lines css /\
    wrote s s' (start_cmds sty (text_fonts mut true (currentPage (ps_eng (text_state sty s))) sty iss) ++ List.concat css).
Proof. exact @writeTextHyphenated_wrote. Qed.
Print Assumptions C54_block_text.
Example C54_example :
  match Lines.writeText (eng:=RefEngine) (fun _ => ret tt) same_style [ITextBlock ($"aa bb cc")] (8%Q : NumQ) DefaultStyle ref_state with
  | Ok tt s' => map ev_cmd (ps_trace s') = [Simple (ChangeFont ref_font); Simple (SetTextColor 0 0 0); Simple (ChangeFont ref_font);
      Simple (SetX (10%Q : NumQ)); Simple (ChangeFont ref_font); WriteText ($"aa"); Simple (ChangeFont ref_font); WriteText ($" bb"); Simple (LineFeed ((3 # 2)%Q : NumQ));
      Simple (SetX (10%Q : NumQ)); Simple (ChangeFont ref_font); WriteText ($"cc"); Simple (LineFeed ((3 # 2)%Q : NumQ))]
  | _ => False end.
Proof. vm_compute. reflexivity. Qed.

(** C66: every "{cp}" is replaced by the decimal number of the page. *)
Theorem C66_placeholder : forall (F : Num) (eng : Engine F) s (p : PS F eng),
  snd (tr s p) = p /\ replaced ($"{cp}") (itoa (currentPage (ps_eng p))) s (fst (tr s p)).
Proof. intros F eng s p. exact (conj eq_refl (replace_all_replaced s ($"{cp}") _ ltac:(discriminate))). Qed.
Print Assumptions C66_placeholder.
Theorem C66_decimal : forall z, decimal z (itoa z).
Proof. exact itoa_decimal. Qed.
Print Assumptions C66_decimal.
Example C66_example : fst (tr (eng:=RefEngine) ($"page {cp} of {cp") ref_state) = $"page 1 of {cp" /\ itoa 1203 = $"1203".
Proof. vm_compute. split; reflexivity. Qed.
