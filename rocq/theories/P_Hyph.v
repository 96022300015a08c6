(** Properties C05-C15: package hyphenation.
    [ext_digit], [ext_lower]: unicode.IsDigit above U+00FF and unicode.ToLower above U+007F,
    arbitrary unless a theorem says otherwise. *)
From Coq Require Import Sorting.Sorted.
From Verif Require Import GoStr GoStrFacts Utf8 Utf8Facts HyphPattern Hyph HyphSpec HyphView HyphFacts HyphFacts2
  HyphPatternFacts HyphEnUs HyphLatin HyphBuiltin HyphBuiltinFacts HyphProofs.

(** C05: no panic. *)
Theorem C05_hyphenate_no_panic : forall ext_digit ext_lower data pl s,
  load ext_digit data = Ok pl -> exists parts, hyphenate ext_lower pl s = Some parts.
Proof. exact no_panic. Qed.
Print Assumptions C05_hyphenate_no_panic.
(** C05: the hypothesis matters: a lookup whose weights are too long does panic. *)
Theorem C05_unloaded_lookup_panics : exists pl s, hyphenate (fun r => r) pl s = None.
Proof. exact unloaded_panics. Qed.
Print Assumptions C05_unloaded_lookup_panics.
Example C05_case : exists pl, load (fun _ => false) ($"a1b" ++ [lf] ++ $".x2y3z") = Ok pl /\
  hyphenate (fun r => r) pl ($"CABXYZ") = Some [$"CA"; $"BXYZ"].
Proof. eexists. split; vm_compute; reflexivity. Qed.

(** C06 is false: with the built-in English patterns "applications" loses its last
    letter. *)
Theorem C06_hyphenate_lossless_refuted : exists pl s parts,
  new_en_us (fun _ => false) = Some pl /\ hyphenate (fun r => r) pl s = Some parts /\ List.concat parts <> s.
Proof. exact lossy. Qed.
Print Assumptions C06_hyphenate_lossless_refuted.
Example C06_case :
  check_en_us ($"applications") (fun ps => if list_eq_dec (list_eq_dec ascii_dec) ps
                                    [$"ap"; $"pli"; $"ca"; $"tion"] then true else false) = true /\
  check_en_us ($"hyphenation") (fun ps => if list_eq_dec (list_eq_dec ascii_dec) ps
                                    [$"hy"; $"phen"; $"ation"] then true else false) = true.
Proof. split; vm_cast_no_check (eq_refl true). Qed.
(** C06, where it holds: a word in which some letter takes more than one byte. *)
Theorem C06_hyphenate_lossless_multibyte : forall ext_digit ext_lower data pl s parts,
  load ext_digit data = Ok pl -> List.length (decode s) < List.length s ->
  hyphenate ext_lower pl s = Some parts -> List.concat parts = s.
Proof. exact lossless_multibyte. Qed.
Print Assumptions C06_hyphenate_lossless_multibyte.

(** C07: at most the final byte is lost. *)
Theorem C07_hyphenate_loses_at_most_last : forall ext_digit ext_lower data pl s parts,
  load ext_digit data = Ok pl -> hyphenate ext_lower pl s = Some parts ->
  List.concat parts = s \/ List.concat parts = removelast s.
Proof. exact loses_at_most_last. Qed.
Print Assumptions C07_hyphenate_loses_at_most_last.
(** C07: it is lost exactly when there is a cut directly before it. *)
Theorem C07_hyphenate_loss_iff : forall ext_digit ext_lower data pl s parts cs,
  load ext_digit data = Ok pl -> 3 <= List.length s <= 100 -> ~ In sp s ->
  liang_cuts (pats pl) (lower_runes ext_lower s) cs ->
  hyphenate ext_lower pl s = Some parts ->
  (List.concat parts = removelast s <-> In (List.length s - 1) cs) /\
  (List.concat parts = s <-> ~ In (List.length s - 1) cs).
Proof. exact loss_iff. Qed.
Print Assumptions C07_hyphenate_loss_iff.

(** C08: the cuts are Liang's. *)
Theorem C08_hyphenate_liang : forall ext_digit ext_lower data pl s,
  load ext_digit data = Ok pl -> 3 <= List.length s <= 100 -> ~ In sp s ->
  exists cs, liang_cuts (pats pl) (lower_runes ext_lower s) cs /\
    hyphenate ext_lower pl s = Some (pieces 0 s cs).
Proof. exact liang. Qed.
Print Assumptions C08_hyphenate_liang.
(** C08: and the rules of [liang_cuts] determine the cuts. *)
Theorem C08_liang_cuts_unique : forall ps word cs cs',
  liang_cuts ps word cs -> liang_cuts ps word cs' -> cs = cs'.
Proof. exact liang_unique. Qed.
Print Assumptions C08_liang_cuts_unique.
Theorem C08_hyphenate_parts_two_bytes : forall ext_digit ext_lower data pl s parts,
  load ext_digit data = Ok pl -> 3 <= List.length s <= 100 -> ~ In sp s ->
  hyphenate ext_lower pl s = Some parts -> Forall (fun p => 2 <= List.length p) parts.
Proof. exact two_bytes. Qed.
Print Assumptions C08_hyphenate_parts_two_bytes.
Theorem C08_hyphenate_whole : forall ext_lower pl s,
  List.length s < 3 \/ 100 < List.length s \/ In sp s -> hyphenate ext_lower pl s = Some [s].
Proof. exact whole. Qed.
Print Assumptions C08_hyphenate_whole.
Example C08_case : exists pl, load (fun _ => false) ($"a1b1c" ++ [lf] ++ $"b2c") = Ok pl /\
  hyphenate (fun r => r) pl ($"xabcabc") = Some [$"xa"; $"bca"; $"bc"].
Proof. eexists. split; vm_compute; reflexivity. Qed.

(** C09 is false: a cut is made at the byte position of a rune index, so the English
    patterns split "re'sume'" inside its second letter. *)
Theorem C09_hyphenate_utf8_refuted : exists pl s parts,
  new_en_us (fun _ => false) = Some pl /\ valid_utf8 s /\
  hyphenate (fun r => r) pl s = Some parts /\ exists p, In p parts /\ ~ valid_utf8 p.
Proof. exact splits_utf8. Qed.
Print Assumptions C09_hyphenate_utf8_refuted.
(** C09, where it holds: ASCII words, ... *)
Theorem C09_hyphenate_utf8_ascii : forall ext_digit ext_lower data pl s parts,
  load ext_digit data = Ok pl -> is_ascii s ->
  hyphenate ext_lower pl s = Some parts -> Forall valid_utf8 parts.
Proof. exact ascii_parts. Qed.
Print Assumptions C09_hyphenate_utf8_ascii.
(** ... and words whose cut positions, as byte offsets, lie between runes. *)
Theorem C09_hyphenate_utf8_boundary : forall ext_digit ext_lower data pl s parts cs,
  load ext_digit data = Ok pl -> valid_utf8 s -> 3 <= List.length s <= 100 -> ~ In sp s ->
  liang_cuts (pats pl) (lower_runes ext_lower s) cs -> Forall (rune_boundary s) cs ->
  hyphenate ext_lower pl s = Some parts -> Forall valid_utf8 parts.
Proof. exact boundary_parts. Qed.
Print Assumptions C09_hyphenate_utf8_boundary.

(** C10: letter case does not matter. *)
Theorem C10_hyphenate_case : forall ext_digit ext_lower data pl s t,
  load ext_digit data = Ok pl -> (forall r, (128 <= r)%N -> ext_lower r <> 32%N) ->
  List.length s = List.length t -> lower_runes ext_lower s = lower_runes ext_lower t ->
  exists ps pt, hyphenate ext_lower pl s = Some ps /\ hyphenate ext_lower pl t = Some pt /\
    map (@List.length _) ps = map (@List.length _) pt.
Proof. exact case_insensitive. Qed.
Print Assumptions C10_hyphenate_case.
Example C10_case : lower_runes (fun r => r) ($"HyPhEn") = lower_runes (fun r => r) ($"hyphen").
Proof. vm_compute. reflexivity. Qed.

(** C11: printing and parsing. *)
Theorem C11_pattern_roundtrip : forall ext_digit p,
  List.length (weights p) = S (List.length (letters p)) -> Forall (fun w => w <= 9) (weights p) ->
  Forall (fun r => valid_rune r = true) (letters p) ->
  parse_pattern ext_digit (pattern_string p) = Ok p.
Proof. exact parse_string. Qed.
Print Assumptions C11_pattern_roundtrip.
Theorem C11_pattern_wellformed : forall ext_digit s p, parse_pattern ext_digit s = Ok p ->
  List.length (weights p) = S (List.length (letters p)) /\ Forall (fun w => w <= 9) (weights p) /\
  Forall (fun r => valid_rune r = true) (letters p).
Proof. exact parse_wf. Qed.
Print Assumptions C11_pattern_wellformed.
(** C11: what a line means: its letters, each with the digit before it or 0, and the
    digit after the last one or 0. *)
Theorem C11_pattern_meaning : forall ext_digit s gs,
  (groups (unicode_digit ext_digit) (decode s) gs ->
   parse_pattern ext_digit s = Ok (mkPattern (map snd gs) (map fst gs ++ [0]))) /\
  (forall p d, decode s = p ++ [d] -> groups (unicode_digit ext_digit) p gs -> ascii_digit d ->
   parse_pattern ext_digit s = Ok (mkPattern (map snd gs) (map fst gs ++ [N.to_nat (d - 48)]))).
Proof. exact (fun e s gs => conj (run_a e s gs) (fun p d => run_b e s p d gs)). Qed.
Print Assumptions C11_pattern_meaning.
Example C11_case : parse_pattern (fun _ => false) ($".me5ter") =
  Ok (mkPattern (map N_of_ascii ($".meter")) [0; 0; 0; 5; 0; 0; 0]).
Proof. vm_compute. reflexivity. Qed.

(** C12: rejection. *)
Theorem C12_pattern_rejects : forall ext_digit s,
  (exists e, parse_pattern ext_digit s = Err e) <->
  exists p d rest gs, decode s = p ++ d :: rest /\ groups (unicode_digit ext_digit) p gs /\
    unicode_digit ext_digit d = true /\ ~ ascii_digit d.
Proof. exact parse_err_iff. Qed.
Print Assumptions C12_pattern_rejects.
Theorem C12_pattern_no_length_error : forall ext_digit s, parse_pattern ext_digit s <> Err ErrLength.
Proof. exact parse_no_length. Qed.
Print Assumptions C12_pattern_no_length_error.
Theorem C12_load_rejects : forall ext_digit ls t,
  Forall no_lf ls -> no_lf t -> Forall short ls -> short t ->
  (exists e, load ext_digit (text_of_lines ls t) = Err e) <->
  exists l, In l (ls ++ [t]) /\ bad_line ext_digit l.
Proof. exact load_rejects. Qed.
Print Assumptions C12_load_rejects.
(** U+0663 is an Arabic digit. *)
Example C12_case : parse_pattern (fun r => (r =? 1635)%N) ($"a" ++ encode [1635%N] ++ $"b") = Err ErrDigit.
Proof. vm_compute. reflexivity. Qed.

(** C13: the last definition wins. *)
Theorem C13_load_last_definition : forall ext_digit ls t pl,
  Forall no_lf ls -> no_lf t -> Forall short ls -> short t ->
  load ext_digit (text_of_lines ls t) = Ok pl ->
  forall key p, find pl key = Some p <-> last_def ext_digit (ls ++ [t]) key p.
Proof. exact load_last. Qed.
Print Assumptions C13_load_last_definition.
Example C13_case : exists pl, load (fun _ => false) (text_of_lines [$"a1b"; $"  "; $"a3b "] ($"c2d")) = Ok pl /\
  find pl ($"ab") = Some (mkPattern (map N_of_ascii ($"ab")) [0; 3; 0]).
Proof. eexists. split; vm_compute; reflexivity. Qed.

(** C14 is false: a line of 64 KiB or more silently ends the file. *)
Theorem C14_load_complete_refuted : exists ls t pl l p,
  Forall no_lf ls /\ no_lf t /\ load (fun _ => false) (text_of_lines ls t) = Ok pl /\
  In l (ls ++ [t]) /\ defines (fun _ => false) l p /\ find pl (encode (letters p)) = None.
Proof. exact load_truncates. Qed.
Print Assumptions C14_load_complete_refuted.
(** C14: in general, everything from the long line on is ignored. *)
Theorem C14_load_truncation : forall ext_digit ls l rest,
  Forall no_lf ls -> Forall short ls -> no_lf l -> ~ short l ->
  load ext_digit (text_of_lines ls (l ++ lf :: rest)) = load ext_digit (text_of_lines ls []).
Proof. exact load_long. Qed.
Print Assumptions C14_load_truncation.

(** C15: the built-in tables are loaded completely. *)
Theorem C15_en_us_complete : forall ext_digit, table_complete ext_digit (new_en_us ext_digit) en_us_lines.
Proof. exact en_us_complete. Qed.
Print Assumptions C15_en_us_complete.
(** C15: U+0153 is a letter, not a digit. *)
Theorem C15_latin_complete : forall ext_digit, ext_digit 339%N = false -> table_complete ext_digit (new_latin ext_digit) latin_lines.
Proof. exact latin_complete. Qed.
Print Assumptions C15_latin_complete.
Example C15_case : List.length en_us_lines = 4939 /\ List.length latin_lines = 337.
Proof. vm_compute. split; reflexivity. Qed.
