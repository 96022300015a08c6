(** Readings of lines used in the statements about text. *)
From Coq Require Import QArith.
From Verif Require Import GoStr GoFmt Num Style Class Instr Engine Lines LinesSpec.

Section View.
Context {F : Num}.
(** The words of the texts in an instruction, with their style. *)
Definition instr_words (mut : Styled F -> Styles F -> Styles F) (page : Z) (sty : Styles F) (is : instr F) : list (Styles F * bytes) :=
  match is with
  | ITextBlock t => map (fun w => (sty, w)) (text_words page t)
  | IParagraph st t => map (fun w => (mut st sty, w)) (text_words page t)
  | _ => []
  end.
(** The words of a line: the first item, and the items after it without the space before them. *)
Definition line_words (l : textLine F) : list (Styles F * bytes) :=
  match l_items l with
  | [] => []
  | it :: its => (i_sty it, i_text it) :: map (fun it => (i_sty it, tl (i_text it))) its
  end.
Definition spaced (l : textLine F) : Prop := forall it, In it (tl (l_items l)) -> exists w, i_text it = sp :: w.
(** The characters of a line that are not spaces. *)
Definition unspaced (s : bytes) : bytes := filter (fun c => negb (Ascii.eqb c sp)) s.
Definition line_letters (l : textLine F) : bytes := unspaced (flat_map i_text (l_items l)).
Definition text_letters (mut : Styled F -> Styles F -> Styles F) (page : Z) (sty : Styles F) (iss : list (instr F)) : bytes :=
  unspaced (flat_map snd (flat_map (instr_words mut page sty) iss)).
(** The letters [t] of a line, without the hyphen inserted at its end if there is one. *)
Definition unhyphenated (l : textLine F) (hyphened : bool) (t : bytes) : Prop :=
  line_letters l = if hyphened then t ++ ["-"%char] else t.
(** A hyphenator that loses nothing of the words of a text (nor of the empty word). *)
Definition lossless (hyph : bytes -> list bytes) mut page sty iss : Prop :=
  List.concat (hyph []) = [] /\ forall st w, In (st, w) (flat_map (instr_words mut page sty) iss) -> List.concat (hyph w) = w.
(** The words of a text fit on a line of their own (in the engine state [e]). *)
Definition words_fit {eng : Engine F} mut blank page sty iss (e : est eng) (width : F) : Prop :=
  forall st w m, In (TWord st w m) (tokens (eng:=eng) mut blank page sty iss e) -> overflows width zero w m = false.
End View.
