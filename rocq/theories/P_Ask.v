(** Property C111: the fonts a document asks for. Proofs are in AskThms.v, specifications in
    AskSpec.v. *)
From Coq Require Import QArith Permutation.
From Verif Require Import GoStr Num Style Class Instr Engine Lines Proc RefEngine ProcView ImageFacts ProcWit LoadStyleSpec OutputSpec AskSpec AskThms AskWit.
From Verif Require Font.
Local Open Scope nat_scope.

(** C111: whatever set of fonts the default font is in and the styles of the document stay in,
    every font asked of the engine, in the body, in headers and footers, for measuring and for
    writing, is in it; for any engine. *)
Theorem C111_within : forall (F : Num) (env : Env F) (eng : Engine F) (P : Font F -> Prop), P (SFont DefaultStyle) -> document_within env P ->
  forall depth e r (s : PS F eng), process env depth e = Ok r s -> forall f, asked (ps_trace s) f -> P f.
Proof. exact (fun F env eng P => process_asks env eng P). Qed.
Print Assumptions C111_within.

(** Every family asked for is Arial or one that a class or a style of the document names. *)
Theorem C111_families : forall (F : Num) (env : Env F) (eng : Engine F) cs, styled_by env cs ->
  forall depth e r (s : PS F eng), process env depth e = Ok r s -> forall f, asked (ps_trace s) f -> Family f = $"Arial" \/ named env cs (Family f).
Proof. exact families_asked. Qed.
Print Assumptions C111_families.

(** If Arial and the families the document names are registered in all four styles, every font
    asked for has been registered: with its name, and the letters of its style up to their order
    and the letter for underlining. *)
Theorem C111_registered : forall (F : Num) (env : Env F) (eng : Engine F) cs reg, styled_by env cs ->
  (forall n, n = $"Arial" \/ named env cs n -> forall sty, In sty [$"regular"; $"bold"; $"italic"; $"bold+italic"] -> exists fd, In fd (Font.r_fonts reg) /\ Font.fd_name fd = n /\ Font.fd_style fd = sty) ->
  forall depth e r (s : PS F eng), process env depth e = Ok r s -> forall f, asked (ps_trace s) f ->
  exists fd, In fd (Font.r_fonts reg) /\ Font.fd_name fd = Family f /\
    Permutation (Font.fpdf_font_style (FStyle f) (Weight f) (Decoration f)) (Font.font_file_style (Font.fd_style fd) ++ if beqb (Decoration f) ($"underline") then $"U" else []).
Proof. exact fonts_registered. Qed.
Print Assumptions C111_registered.

(** A document that sets no font is set in the default font throughout. *)
Theorem C111_default : forall (F : Num) (env : Env F) (eng : Engine F),
  (forall j st, in_document env j -> styles_of j = Some st -> forall y, SFont (e_mut env st y) = SFont y /\ forall sel, SFont (e_mut_sel env sel st y) = SFont y) ->
  forall depth e r (s : PS F eng), process env depth e = Ok r s -> forall f, asked (ps_trace s) f -> f = SFont DefaultStyle.
Proof. exact same_font. Qed.
Print Assumptions C111_default.

(** A document with a header in one family and a table cell with a paragraph in another, which
    asks for both and for Arial. *)
Example C111_example : styled_by named_env [] /\ (forall n, named named_env [] n -> n = $"Times" \/ n = $"Courier") /\
  exists s : PS NumQ RefEngine, process named_env 2 ref_start = Ok None s /\
  exists f g h, asked (ps_trace s) f /\ asked (ps_trace s) g /\ asked (ps_trace s) h /\ Family f = $"Times" /\ Family g = $"Courier" /\ Family h = $"Arial".
Proof. exact named_asks. Qed.
(** A document with a coloured text sets no font. *)
Example C111_default_example : (forall j st, in_document plain_env j -> styles_of j = Some st -> forall y, SFont (e_mut plain_env st y) = SFont y /\ forall sel, SFont (e_mut_sel plain_env sel st y) = SFont y) /\
  exists s : PS NumQ RefEngine, process plain_env 2 ref_start = Ok None s /\ exists f, asked (ps_trace s) f.
Proof. exact plain_asks. Qed.
(** Twelve descriptors are enough for that document. *)
Example C111_registered_example : exists reg, forall n, n = $"Arial" \/ named named_env [] n ->
  forall sty, In sty [$"regular"; $"bold"; $"italic"; $"bold+italic"] -> exists fd, In fd (Font.r_fonts reg) /\ Font.fd_name fd = n /\ Font.fd_style fd = sty.
Proof.
  exists (Font.mkReg [] (flat_map (fun n => map (fun sty => Font.mkFD n sty ($"f.ttf")) [$"regular"; $"bold"; $"italic"; $"bold+italic"]) [$"Arial"; $"Times"; $"Courier"])).
  intros n Hn sty Hs. exists (Font.mkFD n sty ($"f.ttf")). split; [|split; reflexivity]. cbn [Font.r_fonts]. apply in_flat_map. exists n. split; [|apply in_map_iff; exists sty; auto].
  destruct Hn as [->|Hn]; [left; reflexivity|]. destruct (proj1 (proj2 named_asks) n Hn) as [->| ->]; cbn; auto.
Qed.
