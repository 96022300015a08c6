(** Specification of fonts: running an action on a list, and the fonts of a definition. *)
From Verif Require Import GoStr PathSpec Font.

(** All actions of a list succeed in turn. *)
Inductive all_succeed {A S E} (do : A -> S -> S * option E) : list A -> S -> S -> Prop :=
| AllNil s : all_succeed do [] s s
| AllCons a l s s1 s2 : do a s = (s1, None) -> all_succeed do l s1 s2 -> all_succeed do (a :: l) s s2.

(** The outcome of doing all actions of a list up to the first that fails *)
Definition outcome {A S E} (do : A -> S -> S * option E) (l : list A) (s s' : S) (err : option E) : Prop :=
  match err with
  | None => all_succeed do l s s'
  | Some e => exists done a todo s1, l = done ++ a :: todo /\ all_succeed do done s s1 /\ do a s1 = (s', Some e)
  end.

(** The font [fd] is the style [sty] of the definition [fnt], its file found from the directory [d]. *)
Definition describes (d : list bytes) (fd : Descriptor) (fnt : Definition_) (sty : StyleDefinition) : Prop :=
  fd_name fd = df_name fnt /\ fd_style fd = sd_style sty /\ absolute (fd_path fd) /\
  (forall any, leads any (fd_path fd) = leads d (sd_path sty)) /\
  (absolute (sd_path sty) -> fd_path fd = sd_path sty) /\
  (~ absolute (sd_path sty) -> normal_abs (fd_path fd)).
Definition pairs (defs : Definitions) : list (Definition_ * StyleDefinition) :=
  flat_map (fun fnt => map (pair fnt) (df_styles fnt)) (ds_fonts defs).

(** How the files of fonts are known to the PDF: by the name and the letters of the style. *)
Definition letters_of (style : bytes) : bytes :=
  if beqb style ($"bold") then $"B" else if beqb style ($"italic") then $"I"
  else if beqb style ($"bold+italic") then $"BI" else $"".
Definition font_call {F} (fd : Descriptor) (file : bytes) : call F := AddFont (fd_name fd) (letters_of (fd_style fd)) file.
(** The calls that add the fonts, each read from its file, and never leading to an error *)
Definition adds_fonts {F} (read : bytes -> option bytes) (bad : list (call F) -> bool) (before : list (call F))
  (fds : list Descriptor) (calls : list (call F)) : Prop :=
  Forall2 (fun fd c => exists file, read (fd_path fd) = Some file /\ c = font_call fd file) fds calls /\
  forall done todo, calls = done ++ todo -> done <> [] -> bad (rev (before ++ done)) = false.

(** The four styles of fonts, and the fonts of a document that ask for them *)
Inductive asks : bytes -> bytes -> bytes -> Prop :=         (* the font's style and weight, the registered style *)
| AskRegular s w : s <> $"italic" -> w <> $"bold" -> asks s w ($"regular")
| AskBold s : s <> $"italic" -> asks s ($"bold") ($"bold")
| AskItalic w : w <> $"bold" -> asks ($"italic") w ($"italic")
| AskBoldItalic : asks ($"italic") ($"bold") ($"bold+italic").
Definition paper (format : bytes) : bytes :=
  match find (fun p => beqb format (fst p)) [($"a3", $"A3"); ($"a5", $"A5"); ($"letter", $"Letter"); ($"legal", $"Legal")] with
  | Some (_, f) => f | None => $"A4" end.
