(** Properties of class sheets and the cascade. *)
From Coq Require Import Permutation.
From Verif Require Import GoStr Utf8 Utf8Facts Scan Style StyleSpec Class ClassSpec ClassView ClassFacts.

(** C22 *)
Theorem C22_sheet_round_trip : forall F (parse_float convert_float : bytes -> option F) shuffle, map_orders shuffle ->
  forall s rules, sheet (no_controls s) rules ->
  Forall (fun r => decodable parse_float convert_float (r_body r)) rules -> selectors_based rules ->
  exists cs, decode_classes F parse_float convert_float shuffle s = COk cs /\
    sheet_map parse_float convert_float rules cs.
Proof. exact decode_classes_ok. Qed.
Print Assumptions C22_sheet_round_trip.
(** Every other text is an error. *)
Theorem C22_errors_exactly : forall F (parse_float convert_float : bytes -> option F) shuffle, map_orders shuffle ->
  forall s, decode_classes F parse_float convert_float shuffle s = CErr <->
  ~ exists rules, sheet (no_controls s) rules /\
      Forall (fun r => decodable parse_float convert_float (r_body r)) rules /\ selectors_based rules.
Proof. exact decode_classes_err. Qed.
Print Assumptions C22_errors_exactly.
(** A text has at most one reading. *)
Theorem C22_sheet_functional : forall s l, sheet s l -> forall l', sheet s l' -> l = l'.
Proof. exact sheet_fun. Qed.
Print Assumptions C22_sheet_functional.
Definition sample_sheet : bytes := $"a{width:3} a:first{width:4} b {height:1;} a{width:5}  b:x{}".
Definition sample_rules : list rule :=
  [mkRule ($"a") None ($"width:3"); mkRule ($"a") (Some ($"first")) ($"width:4"); mkRule ($"b") None ($"height:1;");
   mkRule ($"a") None ($"width:5"); mkRule ($"b") (Some ($"x")) []].
Example C22_example :
  sheet (no_controls sample_sheet) sample_rules /\
  Forall (fun r => decodable sample_float sample_float (r_body r)) sample_rules /\ selectors_based sample_rules /\
  class_rule sample_rules ($"a") = Some ($"width:5") /\ selector_rule sample_rules ($"a") ($"first") = None /\
  selector_rule sample_rules ($"b") ($"x") = Some [] /\ class_rule sample_rules ($"c") = None /\
  decode_classes Z sample_float sample_float (fun _ l => l) ($"b:x{}") = CErr.
Proof.
  assert (Hr : forall h cls sel, beqb (trim is_ws h) (match sel with Some x => cls ++ colon :: x | None => cls end) &&
     negb (contains_byte colon cls) && negb (beqb cls []) = true -> head_reads h cls sel).
  { intros h cls sel H. apply andb_true_iff in H as [H H3]. apply andb_true_iff in H as [H1 H2].
    apply GoStrFacts.beqb_eq in H1. apply negb_true_iff in H2, H3. 
    assert (Hne : cls <> []) by (intros ->; discriminate).
    assert (Hc : ~ In colon cls) by (rewrite <- GoStrFacts.contains_byte_spec; congruence).
    unfold head_reads. rewrite H1. destruct sel as [x|].
    - split; [destruct cls; [congruence|discriminate]|]. auto.
    - split; [exact Hne|]. auto. }
  split.
  { change (no_controls sample_sheet) with
      ($"a" ++ "{"%char :: $"width:3" ++ "}"%char :: $" a:first" ++ "{"%char :: $"width:4" ++ "}"%char :: $" b " ++ "{"%char :: $"height:1;" ++
       "}"%char :: $" a" ++ "{"%char :: $"width:5" ++ "}"%char :: $"  b:x" ++ "{"%char :: [] ++ "}"%char :: []).
    repeat (apply sheet_rule; [apply GoStrFacts.index_byte_none; reflexivity|apply GoStrFacts.index_byte_none; reflexivity|apply Hr; vm_compute; reflexivity|]).
    apply sheet_end. intros []. }
  split.
  { repeat constructor; eexists; (exists (fun l => l)); (split; [intros l; apply Permutation_refl|vm_compute; reflexivity]). }
  split.
  { intros l1 r l2 s E Hs. unfold sample_rules in E.
    destruct l1 as [|? l1]; [injection E as <- _; discriminate Hs|]. injection E as <- E.
    destruct l1 as [|? l1]; [injection E as <- _; vm_compute; reflexivity|]. injection E as <- E.
    destruct l1 as [|? l1]; [injection E as <- _; discriminate Hs|]. injection E as <- E.
    destruct l1 as [|? l1]; [injection E as <- _; discriminate Hs|]. injection E as <- E.
    destruct l1 as [|? l1]; [injection E as <- _; vm_compute; reflexivity|]. injection E as <- E. destruct l1; discriminate E. }
  repeat split; vm_compute; reflexivity.
Qed.

(** C23: no slice out of range, and the text length bounds the number of iterations. *)
Theorem C23_total : forall F (parse_float convert_float : bytes -> option F) shuffle s,
  decode_classes F parse_float convert_float shuffle s <> CPanic /\
  decode_classes F parse_float convert_float shuffle s <> CFuel.
Proof. exact decode_classes_total. Qed.
Print Assumptions C23_total.
Example C23_example :
  map (fun s => match decode_classes Z sample_float sample_float (fun _ l => l) ($ s) with COk _ => 0 | CErr => 1 | CPanic => 2 | CFuel => 3 end)
    [""; "}{"; "a{"; "a}{}b{}"; "{}"; "a{width:x}"; ":{}"]%string = [0; 1; 1; 0; 1; 1; 0].
Proof. vm_compute. reflexivity. Qed.

(** C24 *)
Theorem C24_cascade : forall F (parse_float convert_float : bytes -> option F) shuffle, map_orders shuffle ->
  forall rules cs attrs st s, sheet_map parse_float convert_float rules cs ->
  decode_attrs F parse_float convert_float shuffle attrs = Some st ->
  exists s', mutated_styles cs st s = Some s' /\
    cascades parse_float convert_float
      (sources rules (flat_map fields (attr_values ($"class") attrs)) (attr_values ($"style") attrs)) s s'.
Proof. exact mutated_styles_spec. Qed.
Print Assumptions C24_cascade.
(** The attributes are refused exactly when a style attribute does not decode. *)
Theorem C24_attrs_refused : forall F (parse_float convert_float : bytes -> option F) shuffle, map_orders shuffle ->
  forall attrs, decode_attrs F parse_float convert_float shuffle attrs = None <->
  Exists (fun b => ~ decodable parse_float convert_float b) (attr_values ($"style") attrs).
Proof. exact attrs_refused. Qed.
Print Assumptions C24_attrs_refused.
(** The class attribute lists the class names separated by white space. *)
Theorem C24_class_list : forall rs ws, valid_runes rs -> words rs ws -> fields (encode rs) = map encode ws.
Proof. exact fields_ok. Qed.
Print Assumptions C24_class_list.
Example C24_example :
  match decode_classes Z sample_float sample_float (fun _ l => l) ($"a{width:1;height:1} b{width:2; line-width:2}"),
        decode_attrs Z sample_float sample_float (fun _ l => l) [($"class", $" a  nope b "); ($"style", $"height:9")] with
  | COk cs, Some st =>
      option_map (fun s => (Width (SDim s), Height (SDim s), LineWidth s, LineSpacing (SDim s))) (mutated_styles cs st sample_styles)
      = Some (2, 9, 2, 1)%Z
  | _, _ => False
  end.
Proof. vm_compute. reflexivity. Qed.

(** C115: one mutator appended to another. *)
Theorem C115_append : forall F (parse_float convert_float : bytes -> option F) sh sh' a b m n, map_order sh -> map_order sh' ->
  decode_mutator F parse_float convert_float sh a = Some m -> decode_mutator F parse_float convert_float sh' b = Some n ->
  forall s, exists s', mutate (mutator_append F m n) s = Some s' /\ cascades parse_float convert_float [a; b] s s'.
Proof. exact append_cascade. Qed.
Print Assumptions C115_append.
Example C115_example :
  match decode_mutator Z sample_float sample_float (fun l => l) ($"width:1;height:1"), decode_mutator Z sample_float sample_float (fun l => l) ($"height:9;line-width:3") with
  | Some m, Some n => option_map (fun s => (Width (SDim s), Height (SDim s), LineWidth s)) (mutate (mutator_append Z m n) sample_styles) = Some (1, 9, 3)%Z
  | _, _ => False
  end.
Proof. vm_compute. reflexivity. Qed.

(** C25 *)
Theorem C25_selector : forall F (parse_float convert_float : bytes -> option F) shuffle, map_orders shuffle ->
  forall rules cs attrs st s sel, sheet_map parse_float convert_float rules cs ->
  decode_attrs F parse_float convert_float shuffle attrs = Some st ->
  exists s', mutated_styles_sel sel cs st s = Some s' /\
    cascades parse_float convert_float
      (sources_sel rules sel (flat_map fields (attr_values ($"class") attrs)) (attr_values ($"style") attrs)) s s'.
Proof. exact mutated_styles_sel_spec. Qed.
Print Assumptions C25_selector.
Example C25_example :
  match decode_classes Z sample_float sample_float (fun _ l => l) ($"a{width:1;height:1} a:first{width:3} b{line-width:2}"),
        decode_attrs Z sample_float sample_float (fun _ l => l) [($"class", $"a b"); ($"style", $"line-spacing:9")] with
  | COk cs, Some st =>
      option_map (fun s => (Width (SDim s), Height (SDim s), LineWidth s, LineSpacing (SDim s))) (mutated_styles_sel ($"first") cs st sample_styles)
      = Some (3, 0, 2, 9)%Z
  | _, _ => False
  end.
Proof. vm_compute. reflexivity. Qed.
