(** Specification of the fonts and colours words are printed in (C102). *)
From Verif Require Import GoStr Num Style Class Instr Engine Lines LinesSpec LinesView Proc OutputSpec.

Section Styled.
Context {F : Num} (env : Env F).

(** The font and the text colour last asked for. *)
Record pen := mkPen { pen_font : option (Font F); pen_color : option RGB }.
Definition no_pen : pen := mkPen None None.
Definition pen_after (p : pen) (c : cmd F) : pen :=
  match c with
  | Simple (ChangeFont f) => mkPen (Some f) (pen_color p)
  | Simple (SetTextColor r g b) => mkPen (pen_font p) (Some (mkRGB r g b))
  | _ => p
  end.
(** The texts written by a list of engine calls, each with the font and colour it is written
    in. The calls made inside callbacks are not counted, and do not change font and colour of
    what comes after them: gofpdf restores both when a page has been begun. *)
Fixpoint prints (p : pen) (evs : list (event F)) : list (pen * bytes) :=
  match evs with
  | [] => []
  | e :: evs' => match ev_cmd e with WriteText t => [(p, t)] | _ => [] end ++ prints (pen_after p (ev_cmd e)) evs'
  end.

(** The words of a text with the style of the element they are in; in block text, an element
    without words counts as one empty word. *)
Definition element_words (page : Z) (sty : Styles F) (i : instr F) : list (Styles F * bytes) :=
  match i, instr_words (e_mut env) page sty i with
  | ITextBlock _, [] => if beqb (HAlign (SAlign sty)) ($"block") then [(sty, [])] else []
  | IParagraph st _, [] => if beqb (HAlign (SAlign sty)) ($"block") then [(e_mut env st sty, [])] else []
  | _, ws => ws
  end.
(** A word in style [st] printed as [o] in the colour [c]: once, spaces not considered, or, in
    block text, in two pieces at a division the hyphenator allows, a hyphen after the first.
    Every piece is in the font of the word. *)
Definition word_printed (block : bool) (c : RGB) (st : Styles F) (w : bytes) (o : list (pen * bytes)) : Prop :=
  Forall (fun q => fst q = mkPen (Some (SFont st)) (Some c)) o /\
  (map (fun q => unspaced (snd q)) o = [w] \/
   block = true /\ exists a b, divides (e_hyph env) w a b /\
     map (fun q => unspaced (snd q)) o = [unspaced (List.concat a) ++ ["-"%char]; unspaced (List.concat b)]).
(** A text in style [sty] printed as [out], word by word, the colour of a word in an element of
    style [st] being [colour sty st]. *)
Definition text_printed (colour : Styles F -> Styles F -> RGB) (sty : Styles F) (iss : list (instr F)) (out : list (pen * bytes)) : Prop :=
  exists page outs, out = List.concat outs /\
    Forall2 (fun p o => word_printed (beqb (HAlign (SAlign sty)) ($"block")) (colour sty (fst p)) (fst p) (snd p) o)
      (flat_map (element_words page sty) iss) outs.
(** The colour of the element itself, and that of the text the element is in. *)
Definition own_colour (sty st : Styles F) : RGB := TextColor (SColor st).
Definition outer_colour (sty st : Styles F) : RGB := TextColor (SColor sty).
(** The texts of a list of instructions, in order, whatever font and colour were asked for
    before. *)
Definition prints_texts (colour : Styles F -> Styles F -> RGB) (iss : list (instr F)) (evs : list (event F)) : Prop :=
  forall p, exists ls outs, Forall2 (shows env) iss ls /\
    Forall2 (fun p o => text_printed colour (fst p) (snd p) o) (List.concat ls) outs /\ prints p evs = List.concat outs.
End Styled.
Arguments pen : clear implicits.
