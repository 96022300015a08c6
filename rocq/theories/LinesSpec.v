(** Specification of line breaking (text.go, text-hyph.go).

    A text is read into tokens: words, each with its style and the function that measures
    strings in the font of the word, and line breaks. Line breaking distributes the words over
    groups, one for each line. *)
From Verif Require Import GoStr GoFmt Num Style Class Instr Engine Lines.
From Verif Require TextSpec.
Local Open Scope num_scope.

Section Spec.
Context {F : Num} {eng : Engine F}.
Local Notation Styles := (Styles F).
Variable mut : Styled F -> Styles -> Styles.

(** The words of a text: the page number filled in, whitespace normalised (TextSpec.v). *)
Definition text_words (page : Z) (s : bytes) : list bytes :=
  TextSpec.words (TextSpec.rectified_spec (replace_all s ($"{cp}") (itoa page))).

Inductive token := TWord (st : Styles) (w : bytes) (m : bytes -> F) | TBreak.
(** What an instruction inside a text stands for: a line break, a text and its style, nothing. *)
Definition reading (page : Z) (sty : Styles) (is : instr F) : option (option (Styles * list bytes)) :=
  match is with
  | ILineBreak => Some None
  | ITextBlock t => Some (Some (sty, text_words page t))
  | IParagraph st t => Some (Some (mut st sty, text_words page t))
  | _ => None
  end.
(** The tokens of a text, read in the engine state [e]; the font is changed for every text that
    has words. With [blank], a text without words counts as one empty word (text-hyph.go). *)
Fixpoint tokens (blank : bool) (page : Z) (sty : Styles) (iss : list (instr F)) (e : est eng) : list token :=
  match iss with
  | [] => []
  | is :: iss' =>
      match reading page sty is with
      | None => tokens blank page sty iss' e
      | Some None => TBreak :: tokens blank page sty iss' e
      | Some (Some (st, ws)) =>
          match (match ws with [] => if blank then [[]] else [] | _ => ws end) with
          | [] => tokens blank page sty iss' e
          | ws => let e' := simple (ChangeFont (SFont st)) e in
                  map (fun w => TWord st w (textWidth e')) ws ++ tokens blank page sty iss' e'
          end
      end
  end.
(** The fonts changed to meanwhile. *)
Fixpoint text_fonts (blank : bool) (page : Z) (sty : Styles) (iss : list (instr F)) : list (Font F) :=
  match iss with
  | [] => []
  | is :: iss' =>
      match reading page sty is with
      | Some (Some (st, ws)) => if negb blank && match ws with [] => true | _ => false end
                                then text_fonts blank page sty iss' else SFont st :: text_fonts blank page sty iss'
      | _ => text_fonts blank page sty iss'
      end
  end.

(** A word on a line: a whole word, or the head of a word divided between the parts [a] and the
    parts [b], or the tail of a divided word. *)
Inductive frag :=
| Whole (st : Styles) (w : bytes) (m : bytes -> F)
| Head (st : Styles) (w : bytes) (a b : list bytes) (m : bytes -> F)
| Tail (st : Styles) (r : bytes) (m : bytes -> F).
Definition frag_tokens (f : frag) : list token :=
  match f with Whole st w m | Head st w _ _ m => [TWord st w m] | Tail _ _ _ => [] end.
Definition head_text (a : list bytes) : bytes := sp :: List.concat a ++ ["-"%char].
Definition frag_width (f : frag) : F :=
  match f with Whole _ w m => m (sp :: w) | Head _ _ a _ m => m (head_text a) | Tail _ r m => m r end.
Definition frag_pure (f : frag) : F :=
  match f with Whole _ w m => m w | Head _ _ a _ m => m (trim is_sp (head_text a)) | Tail _ r m => m (trim is_sp r) end.
(** The item written for it: with a space in front, except for the first word of a line. *)
Definition frag_item (first : bool) (f : frag) : textItem F :=
  match f with
  | Whole st w _ | Tail st w _ => mkItem st (if first then w else sp :: w)
  | Head st _ a _ _ => mkItem st (head_text a)
  end.
Definition is_head (f : frag) : bool := match f with Head _ _ _ _ _ => true | _ => false end.

(** A line, and why it ended: the next word did not fit, a line break, the end of the text. *)
Inductive ending := Wrapped | Broken | Final.
Record group := mkGroup { g_frags : list frag; g_end : ending }.
Definition sum_of (f : frag -> F) (l : list frag) : F := fold_left (fun a x => a + f x) l zero.
Definition total := sum_of frag_width.
Definition items_of (l : list frag) : list (textItem F) :=
  match l with [] => [] | f :: l' => frag_item true f :: map (frag_item false) l' end.
Definition group_tokens (g : group) : list token :=
  flat_map frag_tokens (g_frags g) ++ match g_end g with Broken => [TBreak] | _ => [] end.

Section Rules.
Variables (hyph : bytes -> list bytes) (width : F).
(** The word [w] does not fit behind words of the total width [t]. *)
Definition overflows (t : F) (w : bytes) (m : bytes -> F) : bool := width <=? t + m (sp :: w).
(** The parts [a] of a word fit there. *)
Definition head_fits (t : F) (a : list bytes) (m : bytes -> F) : bool := m (head_text a) <=? width - t.
(** [a] and [b] divide the word [w]. *)
Definition divides (w : bytes) (a b : list bytes) : Prop := hyph w = a ++ b /\ a <> [] /\ b <> [].

(** The rules for a word [f] behind the words [pre] of its line, after the line [prev]. *)
Definition frag_ok (prev : option group) (pre : list frag) (f : frag) : Prop :=
  match f with
  | Whole _ w m =>
      match pre, prev with
      | [], Some (mkGroup p Wrapped) =>
          (* carried over: it did not fit on the line before, and could not be divided *)
          overflows (total p) w m = true /\ forall a b, divides w a b -> head_fits (total p) a m = false
      | _, _ => overflows (total pre) w m = false
      end
  | Head _ w a b m =>
      (* divided as late as possible *)
      overflows (total pre) w m = true /\ divides w a b /\ head_fits (total pre) a m = true /\
      forall c d, divides w (a ++ c) d -> c <> [] -> head_fits (total pre) (a ++ c) m = false
  | Tail st r m =>
      (* at the beginning of the line after its head *)
      pre = [] /\ exists p w a b, prev = Some (mkGroup (p ++ [Head st w a b m]) Wrapped) /\ r = List.concat b
  end.
Definition group_ok (prev : option group) (g : group) : Prop :=
  (forall pre f post, g_frags g = pre ++ f :: post ->
     frag_ok prev pre f /\ (is_head f = true -> post = [] /\ g_end g = Wrapped)) /\
  (* a line that was wrapped, or ends in a head, is followed by a word, or a tail *)
  match prev with
  | Some (mkGroup p Wrapped) =>
      match rev p with
      | Head st w a b m :: _ => exists fs, g_frags g = Tail st (List.concat b) m :: fs
      | _ => exists st w m fs, g_frags g = Whole st w m :: fs
      end
  | _ => True
  end.
Fixpoint groups_ok (prev : option group) (gs : list group) : Prop :=
  match gs with [] => True | g :: gs' => group_ok prev g /\ groups_ok (Some g) gs' end.
(** Only the last line ends with the text, and it has words; the last line is not wrapped. *)
Definition ends_ok (gs : list group) : Prop :=
  forall a g b, gs = a ++ g :: b ->
    (g_end g = Final -> b = [] /\ g_frags g <> []) /\ (b = [] -> g_end g <> Wrapped).

Record broken_into (ts : list token) (gs : list group) : Prop := mkBroken {
  B_tokens : flat_map group_tokens gs = ts;
  B_groups : groups_ok None gs;
  B_ends : ends_ok gs
}.
End Rules.

(** The lines of text.go. *)
Definition is_line (l : textLine F) (g : group) : Prop :=
  l_items l = items_of (g_frags g) /\ l_width l = total (g_frags g).
(** The lines of text-hyph.go: the width of the words alone, too. *)
Definition is_block_line (l : textLine F) (g : group) : Prop :=
  is_line l g /\ l_pure l = sum_of frag_pure (g_frags g).

(** ChangeFont leaves the page number alone. *)
Definition page_stable : Prop := forall f (e : est eng), currentPage (simple (ChangeFont f) e) = currentPage e.
End Spec.
Arguments token : clear implicits. Arguments frag : clear implicits. Arguments group : clear implicits.

(** The lines marked not to be stretched (text-hyph.go:41-43 and :102-105): those before a line
    that ends with a line break, and a line that ends with the text. *)
Definition is_broken {F : Num} (g : group F) : bool := match g_end g with Broken => true | _ => false end.
Definition is_final {F : Num} (g : group F) : bool := match g_end g with Final => true | _ => false end.
Fixpoint block_flags {F : Num} (gs : list (group F)) : list bool :=
  match gs with
  | [] => []
  | g :: gs' => match gs' with g' :: _ => is_broken g' || is_final g | [] => is_final g end :: block_flags gs'
  end.
