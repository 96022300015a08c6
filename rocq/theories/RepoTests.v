(** The tests of the repository that compare results, run on the model: a check of the model, not
    of the properties. The other tests (hyphenation_test.go, diff_test.go, table_test.go) only
    log. Numbers are read as integers, which all numbers in these tests are. *)
From Verif Require Import GoStr Text HyphPattern Style Class ClassView.
Local Open Scope nat_scope.

(** text/text_test.go:8-28 TestRemoveTwins *)
Example test_remove_twins : map (fun p => remove_twins (fst p) (snd p))
    [($"foo bar baz", $" "); ($"foo bar  baz", $" "); ($"foo bar bar baz", $"bar"); ($"foo barbar baz", $"bar"); ($"foo " ++ [lf; lf] ++ $" baz", [lf])] =
  [$"foo bar baz"; $"foo bar baz"; $"foo bar bar baz"; $"foo bar baz"; $"foo " ++ [lf] ++ $" baz"].
Proof. vm_compute. reflexivity. Qed.
(** text/text_test.go:30-50 TestWhitespaceRectified *)
Example test_whitespace_rectified : map whitespace_rectified
    [$"foo bar baz"; $"foo bar  baz"; $"foo bar bar baz"; $"foo \bar \ baz"; $"foo " ++ [lf; lf] ++ $" baz";
     $"  " ++ [cr] ++ $"foo    \\bar " ++ [lf; lf] ++ $" baz" ++ [lf] ++ $"  "] =
  [$"foo bar baz"; $"foo bar baz"; $"foo bar bar baz"; $"foo\bar\baz"; $"foo baz"; $"foo\\bar baz"].
Proof. vm_compute. reflexivity. Qed.

(** hyphenation/hyphenation_test.go:8-23 TestParse *)
Example test_parse : Forall (fun s => exists p, parse_pattern (fun _ => false) s = Ok p) [$"ab5o5liz"; $".me5ter"].
Proof. repeat constructor; eexists; vm_compute; reflexivity. Qed.

(** style.Styles{} *)
Definition empty_styles : Styles Z :=
  mkStyles (mkFont [] 0 [] [] [])%Z (mkBox (mkQuad 0 0 0 0) (mkQuad 0 0 0 0) (mkQuad 0 0 0 0))%Z (mkDim 0 0 0 0 0)%Z 0%Z
    (mkAlign [] []) (mkColor (mkRGB 0 0 0) (mkRGB 0 0 0) (mkRGB 0 0 0))%Z 0%Z.
Definition padded (l t r b : Z) (s : Styles Z) : Styles Z :=
  mkStyles (SFont s) (mkBox (Border (SBox s)) (mkQuad l t r b) (Margin (SBox s))) (SDim s) (ColumnWidth s) (SAlign s) (SColor s) (LineWidth s).
Definition space_type (s : Styles Z) : Styles Z :=
  mkStyles (mkFont ($"space-type") 14%Z ($"italic") ($"bold") ($"underline")) (SBox s) (SDim s) (ColumnWidth s) (SAlign s) (SColor s) (LineWidth s).
Example test_padded : let q := Padding (SBox (padded 1 2 3 4 empty_styles)) in (QLeft q, QTop q, QRight q, QBottom q) = (1, 2, 3, 4)%Z.
Proof. reflexivity. Qed.

(** style/style_test.go:9-84 TestMutate; [None] is an error of the decoder *)
Definition mutated_by (phrase : bytes) : option (option (Styles Z)) :=
  option_map (fun m => mutate m empty_styles) (decode_mutator Z sample_float sample_float (fun l => l) phrase).
Example test_mutate : map mutated_by
    [$"padding: 1,2,3,4"; $"padding: 1,2,3";
     $"font-family: space-type; font-point-size: 14; font-style: italic; font-weight: bold; font-decoration: underline;"] =
  [Some (Some (padded 1 2 3 4 empty_styles)); None; Some (Some (space_type empty_styles))].
Proof. vm_compute. reflexivity. Qed.

(** A class sheet as in the tests, indented with tabs. *)
Definition sheet_lines (l : list bytes) : bytes := [lf] ++ flat_map (fun s => [tab; tab; tab] ++ s ++ [lf]) l ++ [tab; tab; tab].
Definition two_classes : bytes := sheet_lines
  [$"padded{"; [tab] ++ $"padding: 1,2,3,4;"; $"}"; $"bold-unerline{"; [tab] ++ $"font-family: space-type;"; [tab] ++ $"font-point-size: 14;";
   [tab] ++ $"font-style: italic;"; [tab] ++ $"font-weight: bold;"; [tab] ++ $"font-decoration: underline;"; $"}"].
Definition selected : bytes := sheet_lines
  [$"padded{"; [tab] ++ $"padding: 1,2,3,4;"; $"}"; $"padded:reverse{"; [tab] ++ $"padding: 4,3,2,1;"; $"}" ++ [tab; tab; tab]].
Definition with_classes (sheet : bytes) (f : Classes Z -> option (Styles Z)) : option (option (Styles Z)) :=
  match decode_classes Z sample_float sample_float (fun _ l => l) sheet with COk cs => Some (f cs) | _ => None end.
(** style/class_test.go:8-84 TestClasses *)
Example test_classes :
  with_classes two_classes (fun cs => classes_mutate Z cs [$"padded"; $"bold-unerline"] empty_styles) = Some (Some (space_type (padded 1 2 3 4 empty_styles))) /\
  decode_classes Z sample_float sample_float (fun _ l => l) ($"xt{") = CErr.
Proof. vm_compute. split; reflexivity. Qed.
(** style/class_test.go:86-213 TestClassesSelectors *)
Example test_classes_selectors :
  with_classes two_classes (fun cs => classes_mutate_sel Z [] cs [$"padded"; $"bold-unerline"] empty_styles) = Some (Some (space_type (padded 1 2 3 4 empty_styles))) /\
  with_classes selected (fun cs => classes_mutate_sel Z [] cs [$"padded"] empty_styles) = Some (Some (padded 1 2 3 4 empty_styles)) /\
  with_classes selected (fun cs => classes_mutate_sel Z ($"reverse") cs [$"padded"] empty_styles) = Some (Some (padded 4 3 2 1 empty_styles)).
Proof. vm_compute. repeat split; reflexivity. Qed.
