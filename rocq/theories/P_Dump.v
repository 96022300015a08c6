(** Properties C96 and C101: descriptions dumped as XML and as JSON.

    [format_float] writes a number as strconv.FormatFloat does; it can be any function. The reader
    [read_xml] and the XML expected for a description are specified in DumpSpec. *)
From Coq Require Import ZArith QArith Permutation.
From Verif Require Import GoStr Utf8 Num Style Class Instr Load Describe DescribeSpec DescribeProofs Dump DumpSpec DumpThms Json JsonSpec JsonThms LoadWit.
Local Open Scope nat_scope.

(** C96: the description of a document, with floats as binary64, is dumped completely: its XML can
    be read and shows all items, in order, whatever bytes are in their texts. *)
Theorem C96_dump : forall (format_float : NumF64 -> bytes) mutated order doc, (forall tp p l, Permutation (order tp p l) l) ->
  let items := describe NumF64 f64_finite mutated order doc in
  read_xml (dump_xml NumF64 format_float items) = Some (description_tree format_float items).
Proof. exact document_dumped. Qed.
Print Assumptions C96_dump.
(** Any items, unless there is a difference to show that is not a string or number *)
Theorem C96_items : forall (F : Num) (format_float : F -> bytes) items, Forall no_objects items ->
  read_xml (dump_xml F format_float items) = Some (description_tree format_float items).
Proof. exact items_dumped. Qed.
Print Assumptions C96_items.
(** Texts of characters that XML can express are shown as they are. *)
Theorem C96_texts : forall rs, Forall expressible rs -> legible (encode rs) = encode rs.
Proof. exact legible_same. Qed.
Print Assumptions C96_texts.
(** The command describe: what it prints after what loading has printed (C112) *)
Theorem C96_command : forall (format_float : NumF64 -> bytes) load mutated order args, (forall tp p l, Permutation (order tp p l) l) ->
  let file := match args with [] => $"../../examples/grid.xml" | a :: _ => a end in
  let '(code, printed) := describe_main NumF64 format_float load f64_finite mutated order args in
  exists own, printed = snd (load file) ++ own /\
  match fst (load file) with
  | inl doc => code = 0 /\ read_xml own = Some (description_tree format_float (describe NumF64 f64_finite (mutated doc) order doc))
  | inr err => code = 2 /\ own = $"ERROR: " ++ err ++ [lf]
  end.
Proof. exact main_prints. Qed.
Print Assumptions C96_command.
Example C96_example :
  let items : list (item NumQ) := [mkItem ($"a<b") (StrValue ($"x & 'y'" ++ [ascii_of_nat 7])) [mkDiff ($"styles:Width") (Some (JNum (0%Q : NumQ))) (JNum (2%Q : NumQ))]
    [mkItem ($"in") NoValue [] []]] in
  let fmt (x : NumQ) := if Qeq_bool x 0%Q then $"0" else $"2" in
  Forall no_objects items /\
  split_byte lf (dump_xml NumQ fmt items) =
    [$"<Description>"; $"  <Items>"; $"    <Name>a&lt;b</Name>"; $"    <Value>x &amp; &#39;y&#39;" ++ encode_rune rune_error ++ $"</Value>";
     $"    <StyleDiffs>"; $"      <Path>styles:Width</Path>"; $"      <Org>0</Org>"; $"      <Mod>2</Mod>"; $"    </StyleDiffs>";
     $"    <Items>"; $"      <Name>in</Name>"; $"    </Items>"; $"  </Items>"; $"</Description>"] /\
  read_xml (dump_xml NumQ fmt items) = Some (Node ($"Description") [] [Node ($"Items") []
    [Node ($"Name") ($"a<b") []; Node ($"Value") ($"x & 'y'" ++ encode_rune rune_error) [];
     Node ($"StyleDiffs") [] [Node ($"Path") ($"styles:Width") []; Node ($"Org") ($"0") []; Node ($"Mod") ($"2") []];
     Node ($"Items") [] [Node ($"Name") ($"in") []]]]).
Proof. cbv zeta. split; [repeat constructor|]. split; vm_compute; reflexivity. Qed.

(** C101 fails: a document with a margin of NaN has a description, which is dumped as XML, but
    as JSON nothing is dumped. *)
Theorem C101_refuted : exists doc, forall (fmt : NumF64 -> bytes) mm xml_fmt mutated order, (forall tp p l, Permutation (order tp p l) l) ->
  dump NumF64 fmt f64_finite mm xml_fmt ($"json") (describe NumF64 f64_finite mutated order doc) = [] /\
  read_xml (dump NumF64 fmt f64_finite mm xml_fmt ($"xml") (describe NumF64 f64_finite mutated order doc)) = Some (description_tree xml_fmt (describe NumF64 f64_finite mutated order doc)).
Proof. exact nan_lost. Qed.
Print Assumptions C101_refuted.
(** If the numbers of the description are finite, its JSON can be read and shows all items, in
    order, whatever bytes are in their texts; otherwise nothing is dumped. [fmt] writes numbers as
    encoding/json does: digits, signs, a point and an exponent. *)
Theorem C101_dump_partial : forall (fmt : NumF64 -> bytes) mm mutated order doc format xml_fmt, (forall tp p l, Permutation (order tp p l) l) ->
  (forall x, f64_finite x = true -> number_literal (fmt x)) -> format <> $"xml" ->
  let items := describe NumF64 f64_finite mutated order doc in let out := dump NumF64 fmt f64_finite mm xml_fmt format items in
  (Forall (fun x => f64_finite x = true) (numbers items) -> option_map normal (read_json out) = Some (description_shown fmt items)) /\
  (forall x, In x (numbers items) -> f64_finite x = false -> out = []).
Proof. exact document_shown. Qed.
Print Assumptions C101_dump_partial.
(** Any items, unless there is a difference to show that is not a string or number *)
Theorem C101_items_partial : forall (F : Num) (fmt : F -> bytes) (finite : F -> bool) mm, (forall x, finite x = true -> number_literal (fmt x)) ->
  forall items, Forall no_objects items -> Forall (fun x => finite x = true) (numbers items) ->
  option_map normal (read_json (dump_json F fmt finite mm items)) = Some (description_shown fmt items).
Proof. exact @items_shown. Qed.
Print Assumptions C101_items_partial.
(** Valid UTF-8 is shown as it is. *)
Theorem C101_texts : forall rs, Forall (fun r => valid_rune r = true) rs -> repaired (encode rs) = encode rs.
Proof. exact repaired_valid. Qed.
Print Assumptions C101_texts.
Example C101_example :
  let items : list (item NumQ) := [mkItem ($"a<b") (StrValue ($"x \ ""y""" ++ [lf; ascii_of_nat 7; ascii_of_nat 200])) [mkDiff ($"styles:Width") (Some (JNum (0%Q : NumQ))) (JNum (2%Q : NumQ))]
    [mkItem ($"line-break") NoValue [] []]] in
  let fmt (x : NumQ) := if Qeq_bool x 0%Q then $"0" else $"2" in
  (forall x, true = true -> number_literal (fmt x)) /\ Forall no_objects items /\ Forall (fun x => true = true) (numbers items) /\
  split_byte lf (dump_json NumQ fmt (fun _ => true) (fun _ => None) items) =
    [$"{"; $"  ""Items"": ["; $"    {"; $"      ""Name"": ""a\u003cb"","; $"      ""Value"": ""x \\ \""y\""\n\u0007\ufffd"",";
     $"      ""StyleDiffs"": ["; $"        {"; $"          ""Path"": ""styles:Width"","; $"          ""Org"": 0,"; $"          ""Mod"": 2"; $"        }"; $"      ],";
     $"      ""Items"": ["; $"        {"; $"          ""Name"": ""line-break"","; $"          ""Value"": null,"; $"          ""StyleDiffs"": null,"; $"          ""Items"": null"; $"        }"; $"      ]";
     $"    }"; $"  ]"; $"}"] /\
  option_map normal (read_json (dump_json NumQ fmt (fun _ => true) (fun _ => None) items)) =
    Some (JObject [($"Items", JArray [JObject [($"Name", JText ($"a<b")); ($"Value", JText ($"x \ ""y""" ++ [lf; ascii_of_nat 7] ++ encode_rune rune_error));
      ($"StyleDiffs", JArray [JObject [($"Path", JText ($"styles:Width")); ($"Org", JNumber ($"0")); ($"Mod", JNumber ($"2"))]]);
      ($"Items", JArray [JObject [($"Name", JText ($"line-break")); ($"Value", JNull); ($"StyleDiffs", JNull); ($"Items", JNull)]])]])]).
Proof.
  cbv zeta. split; [intros x _; destruct (Qeq_bool x 0%Q); split; try constructor|]. split; [repeat constructor|]. split; [repeat constructor|]. split; vm_compute; reflexivity.
Qed.
