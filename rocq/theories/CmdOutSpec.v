(** Specification of what the command prints (C113): which step fails, and with which error. *)
From Verif Require Import GoStr Path PathSpec Cmd.

(** What a step may end with. *)
Definition good {A} (r : A + bytes) : option A := match r with inl a => Some a | inr _ => None end.

Section Steps.
Context {Doc Fonts Eng : Type}.
Variable load : Files -> bytes -> (Doc + bytes) * bytes.
Variable create : Files -> bytes -> option bytes.
Variable load_fonts : Files -> bytes -> Fonts + bytes.
Variable new_engine : Files -> Fonts -> Doc -> Eng + bytes.
Variable process : Files -> Eng -> Doc -> bytes * option bytes * bytes.
Variables (fs fs1 : Files) (input output : bytes).    (* [fs1]: with the output file emptied *)

(** [fails code step err]: all steps before succeed, the one of this name fails with [err]. *)
Inductive fails : nat -> bytes -> bytes -> Prop :=
| Fails_load : forall err said, load fs input = (inr err, said) -> fails 2 ($"compiling input") err
| Fails_create : forall doc said err, load fs input = (inl doc, said) -> create fs output = Some err -> fails 2 ($"create output-file") err
| Fails_fonts : forall doc said err, load fs input = (inl doc, said) -> create fs output = None ->
    load_fonts fs1 ($"fonts/fontdef.toml") = inr err -> fails 2 ($"loading font-def") err
| Fails_engine : forall doc said fonts err, load fs input = (inl doc, said) -> create fs output = None ->
    load_fonts fs1 ($"fonts/fontdef.toml") = inl fonts -> new_engine fs1 fonts doc = inr err -> fails 3 ($"create fpdf-engine") err
| Fails_process : forall doc said fonts eng out err more, load fs input = (inl doc, said) -> create fs output = None ->
    load_fonts fs1 ($"fonts/fontdef.toml") = inl fonts -> new_engine fs1 fonts doc = inl eng ->
    process fs1 eng doc = (out, Some err, more) -> fails 4 ($"processing input") err.

(** Process is called, with this engine and document. *)
Definition processes (eng : Eng) (doc : Doc) : Prop :=
  exists said fonts, load fs input = (inl doc, said) /\ create fs output = None /\
    load_fonts fs1 ($"fonts/fontdef.toml") = inl fonts /\ new_engine fs1 fonts doc = inl eng.
(** [says_itself text]: what the steps print by themselves: loading, then Process if it is called. *)
Definition says_itself (text : bytes) : Prop :=
  (forall eng doc, processes eng doc -> text = snd (load fs input) ++ snd (process fs1 eng doc)) /\
  ((forall eng doc, ~ processes eng doc) -> text = snd (load fs input)).
End Steps.
