(** Property C112: what loading and the command describe print. Proofs are in ClassOutThms.v, the
    lines expected in ClassOutSpec.v. *)
From Coq Require Import ZArith QArith Permutation.
From Verif Require Import GoStr Utf8 Num Style Class ClassSpec Instr Xml Load Describe DescribeSpec Dump DumpSpec ClassOut ClassOutSpec ClassOutThms LoadWit.
Local Open Scope nat_scope.

(** C112 fails: a document with a selector in its classes loads, but what the command describe
    prints for it cannot be read as XML. *)
Theorem C112_refuted : exists kids doc cs said,
  load_out NumQ sample_q sample_q (fun _ _ _ l => l) (fun _ l => l) (root kids) = (LOk NumQ doc cs, said) /\
  forall fmt load finite mutated order args, load (match args with [] => $"../../examples/grid.xml" | a :: _ => a end) = (inl doc, said) ->
  let '(code, printed) := describe_main NumQ fmt load finite mutated order args in code = 0 /\ read_xml printed = None.
Proof. exact selector_spoils. Qed.
Print Assumptions C112_refuted.
(** It prints a line for each rule with a selector, in order, and then the XML of the description;
    nothing comes before the XML if there are no selectors. *)
Theorem C112_command_partial : forall (fmt : NumF64 -> bytes) parse_float convert_float order sheet_order toks doc cs said load mutated diffs args,
  (forall tp p l, Permutation (diffs tp p l) l) ->
  load_out NumF64 parse_float convert_float order sheet_order toks = (LOk NumF64 doc cs, said) ->
  load (match args with [] => $"../../examples/grid.xml" | a :: _ => a end) = (inl doc, said) ->
  exists l xml, sheet (no_controls (doc_style NumF64 doc)) l /\
    describe_main NumF64 fmt load f64_finite mutated diffs args = (0, announced l ++ xml) /\
    read_xml xml = Some (description_tree fmt (describe NumF64 f64_finite (mutated doc) diffs doc)) /\
    (Forall (fun r => r_sel r = None) l -> announced l = []).
Proof. exact command_says. Qed.
Print Assumptions C112_command_partial.
(** Load prints these lines, and its result is that of [load]. *)
Theorem C112_load : forall F parse_float convert_float order sheet_order toks doc cs said,
  load_out F parse_float convert_float order sheet_order toks = (LOk F doc cs, said) ->
  load F parse_float convert_float order sheet_order toks = LOk F doc cs /\ exists l, sheet (no_controls (doc_style F doc)) l /\ said = announced l.
Proof. exact load_says. Qed.
Print Assumptions C112_load.
Theorem C112_same : forall F parse_float convert_float order sheet_order toks,
  fst (load_out F parse_float convert_float order sheet_order toks) = load F parse_float convert_float order sheet_order toks.
Proof. exact load_same. Qed.
Print Assumptions C112_same.
(** DecodeClasses prints the lines of the rules it has read: all of them if it succeeds, else those
    of rules at the beginning of the text. *)
Theorem C112_sheet : forall F parse_float convert_float shuffle s, exists s1 s2 l, no_controls s = s1 ++ s2 /\ sheet s1 l /\
  snd (decode_classes_out F parse_float convert_float shuffle s) = announced l /\
  ((exists cs, fst (decode_classes_out F parse_float convert_float shuffle s) = COk cs) -> s2 = []).
Proof. exact decode_says. Qed.
Print Assumptions C112_sheet.
Example C112_example :
  snd (load_out NumQ sample_q sample_q (fun _ _ _ l => l) (fun _ l => l) (root [el "style" [] [ch "p{width:3} p:first{width:4} q{} q:x{} p : y{}"]])) =
    $"added selector (first) to class (p) " ++ [lf] ++ $"added selector (x) to class (q) " ++ [lf] /\
  fst (load_out NumQ sample_q sample_q (fun _ _ _ l => l) (fun _ l => l) (root [el "style" [] [ch "p{width:3} p:first{width:4} q{} q:x{} p : y{}"]])) = LErr NumQ.
Proof. split; vm_compute; reflexivity. Qed.
