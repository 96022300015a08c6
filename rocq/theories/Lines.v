(** Model of text.go and text-hyph.go. *)
From Verif Require Import GoStr GoFmt Num Style Class Text Instr Engine Layout.
Local Open Scope num_scope.

Section Lines.
Context {F : Num} {eng : Engine F}.
Local Notation St := (St eng).
Local Notation M := (M eng).
Local Notation Styles := (Styles F).
Local Notation instr := (instr F).
Variable callback : cb -> M unit.
(** MutatedStyles with the document's classes *)
Variable mut : Styled F -> Styles -> Styles.

(** text.go:11-21 *)
Record textItem := mkItem { i_sty : Styles; i_text : bytes }.
Record textLine := mkLine { l_items : list textItem; l_width : F; l_pure : F; l_paragraph : bool }.
Definition empty_line : textLine := mkLine [] zero zero false.

(** process.go:91-93 *)
Definition tr (s : bytes) : St bytes :=
  let! n := query currentPage in sret (replace_all s ($"{cp}") (itoa n)).
(** process.go:95-98 *)
Definition with_font (f : Font F) (s : Styles) : Styles :=
  mkStyles f (SBox s) (SDim s) (ColumnWidth s) (SAlign s) (SColor s) (LineWidth s).
Definition changeFont (fnt : Font F) : St unit :=
  modify (fun s => set_sty (with_font fnt (ps_sty s)) s) ;!
  let! y := get ps_sty in emit (ChangeFont (SFont y)).
(** text.go:23-25 *)
Definition words (s : bytes) : list bytes := split_byte sp s.
(** text.go:28-30, text-hyph.go:12-14 *)
Definition norm (s : bytes) : St bytes := let! t := tr s in sret (whitespace_rectified t).

(** The items of one instruction (text.go:34-52, text-hyph.go:38-60): a line break, an item, or
    nothing. *)
Inductive piece := PBreak | PItem (it : textItem) | PNone.
Definition read_piece (sty : Styles) (is : instr) : St piece :=
  match is with
  | ILineBreak => sret PBreak
  | ITextBlock text => let! t := norm text in sret (PItem (mkItem sty t))
  | IParagraph st text => let! t := norm text in sret (PItem (mkItem (mut st sty) t))
  | _ => sret PNone
  end.

(** ** text.go *)
(** text.go:59-75 *)
Fixpoint place_words (width : F) (sty : Styles) (ws : list bytes) (lines : list textLine) (curr : textLine)
  : St (list textLine * textLine) :=
  match ws with
  | [] => sret (lines, curr)
  | word :: ws' =>
      let! itemWidth := query (fun e => textWidth e (sp :: word)) in
      let '(lines, curr) :=
        if width <=? l_width curr + itemWidth then (lines ++ [curr], empty_line) else (lines, curr) in
      let text := match l_items curr with [] => word | _ => sp :: word end in
      place_words width sty ws' lines
        (mkLine (l_items curr ++ [mkItem sty text]) (l_width curr + itemWidth) (l_pure curr) (l_paragraph curr))
  end.
(** text.go:33-76 *)
Fixpoint place_pieces (width : F) (sty : Styles) (iss : list instr) (lines : list textLine) (curr : textLine)
  : St (list textLine * textLine) :=
  match iss with
  | [] => sret (lines, curr)
  | is :: iss' =>
      let! p := read_piece sty is in
      match p with
      | PBreak => place_pieces width sty iss' (lines ++ [curr]) empty_line
      | PNone => place_pieces width sty iss' lines curr
      | PItem it =>
          match i_text it with
          | [] => place_pieces width sty iss' lines curr
          | _ =>
              changeFont (SFont (i_sty it)) ;!
              let! r := place_words width (i_sty it) (words (i_text it)) lines curr in
              place_pieces width sty iss' (fst r) (snd r)
          end
      end
  end.
(** text.go:27-81 *)
Definition textLines (iss : list instr) (width : F) (sty : Styles) : St (list textLine) :=
  let! r := place_pieces width sty iss [] empty_line in
  let '(lines, curr) := r in
  sret (match l_items curr with [] => lines | _ => lines ++ [curr] end).

(** text.go:86-88, text-hyph.go:111-113 *)
Definition lines_height (n : nat) (sty : Styles) : St F :=
  let! fh := query fontHeight in
  let lineHeight := fh * LineSpacing (SDim sty) in
  let! fh' := query fontHeight in
  sret (of_Z (Z.of_nat n) * lineHeight - lineHeight + fh').
(** text.go:83-89 *)
Definition textHeight (iss : list instr) (width : F) (sty : Styles) : St F :=
  emit (ChangeFont (SFont sty)) ;!
  let! lines := textLines iss width sty in
  lines_height (List.length lines) sty.

(** text.go:105-108, text-hyph.go:125-128 *)
Fixpoint write_items (items : list textItem) : M unit :=
  match items with
  | [] => ret tt
  | it :: items' =>
      lift (changeFont (SFont (i_sty it))) ;;
      write_text callback (i_text it) ;;
      write_items items'
  end.
(** text.go:97-104 *)
Definition align_line (width xLeft : F) (sty : Styles) (line : textLine) : St unit :=
  if beqb (HAlign (SAlign sty)) ($"left") then emit (SetX xLeft)
  else if beqb (HAlign (SAlign sty)) ($"center") then emit (SetX (xLeft + (width - l_width line) / of_Z 2))
  else if beqb (HAlign (SAlign sty)) ($"right") then emit (SetX (xLeft + width - l_width line))
  else sret tt.
(** text.go:96-110 *)
Fixpoint write_lines (width xLeft : F) (sty : Styles) (lines : list textLine) : M unit :=
  match lines with
  | [] => ret tt
  | line :: lines' =>
      lift (align_line width xLeft sty line) ;;
      write_items (l_items line) ;;
      lift (emit (LineFeed (LineSpacing (SDim sty)))) ;;
      write_lines width xLeft sty lines'
  end.
(** text.go:91-111 *)
Definition writeText (iss : list instr) (width : F) (sty : Styles) : M unit :=
  lift (emit (ChangeFont (SFont sty))) ;;
  lift (set_text_color (TextColor (SColor sty))) ;;
  let* lines := lift (textLines iss width sty) in
  let* xy := lift (query getXY) in
  write_lines width (fst xy) sty lines.

(** ** text-hyph.go *)
(** Hyphenator.Hyphenate *)
Variable hyph : bytes -> list bytes.

Definition hyphen : ascii := "-"%char.
(** text-hyph.go:22-31: the remaining values [i - 1], ..., 0 of the loop variable *)
Fixpoint try_parts (parts : list bytes) (availWidth : F) (i : nat) : St (option (bytes * bytes)) :=
  match i with
  | O => sret None
  | S i' =>
      let trial := sp :: List.concat (firstn (i' + 1)%nat parts) ++ [hyphen] in
      let! trialWidth := query (fun e => textWidth e trial) in
      if trialWidth <=? availWidth then sret (Some (trial, List.concat (skipn (i' + 1)%nat parts)))
      else try_parts parts availWidth i'
  end.
(** text-hyph.go:15-33 *)
Definition tryHyphenate (width : F) (s : bytes) (currWidth : F) : St (option (bytes * bytes)) :=
  let availWidth := width - currWidth in
  let parts := hyph s in
  if (List.length parts <? 2)%nat then sret None
  else try_parts parts availWidth (List.length parts - 1)%nat.

(** text-hyph.go:64-99 *)
Fixpoint place_words_h (width : F) (sty : Styles) (ws : list bytes) (lines : list textLine) (curr : textLine)
  : St (list textLine * textLine) :=
  match ws with
  | [] => sret (lines, curr)
  | word :: ws' =>
      let! itemWidth := query (fun e => textWidth e (sp :: word)) in
      let! pureItemWidth := query (fun e => textWidth e word) in
      let! st :=
        if width <=? l_width curr + itemWidth then                                        (* :71 *)
          let! h := tryHyphenate width word (l_width curr) in
          match h with
          | None => sret (lines ++ [curr], empty_line, word, itemWidth, pureItemWidth)    (* :75-76 *)
          | Some (s1, s2) =>
              let! w1 := query (fun e => textWidth e s1) in
              let! p1 := query (fun e => textWidth e (trim is_sp s1)) in
              let full := mkLine (l_items curr ++ [mkItem sty s1]) (l_width curr + w1) (l_pure curr + p1) (l_paragraph curr) in
              let! w2 := query (fun e => textWidth e s2) in
              let! p2 := query (fun e => textWidth e (trim is_sp s2)) in
              sret (lines ++ [full], empty_line, s2, w2, p2)                              (* :78-89 *)
          end
        else sret (lines, curr, word, itemWidth, pureItemWidth) in
      let '(lines, curr, word, itemWidth, pureItemWidth) := st in
      let text := match l_items curr with [] => word | _ => sp :: word end in             (* :93-95 *)
      place_words_h width sty ws' lines
        (mkLine (l_items curr ++ [mkItem sty text]) (l_width curr + itemWidth) (l_pure curr + pureItemWidth) (l_paragraph curr))
  end.
(** text-hyph.go:41-43: mark the last line, if any *)
Definition mark_last (lines : list textLine) : list textLine :=
  match rev lines with
  | [] => []
  | l :: ls => rev ls ++ [mkLine (l_items l) (l_width l) (l_pure l) true]
  end.
(** text-hyph.go:37-100 *)
Fixpoint place_pieces_h (width : F) (sty : Styles) (iss : list instr) (lines : list textLine) (curr : textLine)
  : St (list textLine * textLine) :=
  match iss with
  | [] => sret (lines, curr)
  | is :: iss' =>
      let! p := read_piece sty is in
      match p with
      | PBreak => place_pieces_h width sty iss' (mark_last lines ++ [curr]) empty_line
      | PNone => place_pieces_h width sty iss' lines curr
      | PItem it =>
          changeFont (SFont (i_sty it)) ;!
          let! r := place_words_h width (i_sty it) (words (i_text it)) lines curr in
          place_pieces_h width sty iss' (fst r) (snd r)
      end
  end.
(** text-hyph.go:11-106 *)
Definition textLinesHyphenated (iss : list instr) (width : F) (sty : Styles) : St (list textLine) :=
  let! r := place_pieces_h width sty iss [] empty_line in
  let '(lines, curr) := r in
  sret (match l_items curr with
        | [] => lines
        | _ => lines ++ [mkLine (l_items curr) (l_width curr) (l_pure curr) true]
        end).

(** text-hyph.go:108-114 *)
Definition textHeightHyphenated (iss : list instr) (width : F) (sty : Styles) : St F :=
  emit (ChangeFont (SFont sty)) ;!
  let! lines := textLinesHyphenated iss width sty in
  lines_height (List.length lines) sty.

(** text-hyph.go:132-137 *)
Fixpoint write_spaced (spaceWidth : F) (items : list textItem) : M unit :=
  match items with
  | [] => ret tt
  | it :: items' =>
      lift (changeFont (SFont (i_sty it))) ;;
      write_text callback (trim is_sp (i_text it)) ;;
      let* xy := lift (query getXY) in
      lift (emit (SetX (fst xy + spaceWidth))) ;;
      write_spaced spaceWidth items'
  end.
(** text-hyph.go:121-140 *)
Fixpoint write_lines_h (width xLeft : F) (sty : Styles) (lines : list textLine) : M unit :=
  match lines with
  | [] => ret tt
  | line :: lines' =>
      lift (emit (SetX xLeft)) ;;
      let spaceCnt := (Z.of_nat (List.length (l_items line)) - 1)%Z in
      (if (spaceCnt <? 1)%Z || l_paragraph line then write_items (l_items line)
       else
         let spaceWidth := (width - of_Z 1 / of_Z 10 - l_pure line) / of_Z spaceCnt in
         write_spaced spaceWidth (l_items line)) ;;
      lift (emit (LineFeed (LineSpacing (SDim sty)))) ;;
      write_lines_h width xLeft sty lines'
  end.
(** text-hyph.go:116-141 *)
Definition writeTextHyphenated (iss : list instr) (width : F) (sty : Styles) : M unit :=
  lift (emit (ChangeFont (SFont sty))) ;;
  lift (set_text_color (TextColor (SColor sty))) ;;
  let* lines := lift (textLinesHyphenated iss width sty) in
  let* xy := lift (query getXY) in
  write_lines_h width (fst xy) sty lines.

(** process.go:214-221 *)
Definition textHeightFnc (sty : Styles) : list instr -> F -> Styles -> St F :=
  if beqb (HAlign (SAlign sty)) ($"block") then textHeightHyphenated else textHeight.
(** process.go:223-230 *)
Definition writeTextFnc (sty : Styles) : list instr -> F -> Styles -> M unit :=
  if beqb (HAlign (SAlign sty)) ($"block") then writeTextHyphenated else writeText.
End Lines.
Arguments textItem : clear implicits. Arguments textLine : clear implicits.
