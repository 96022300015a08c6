(** Property C97: the letters of a file reach the pages.

    [load] is Load on the tokens of the XML decoder, [process] is Process on the Processor of the
    loaded document; [kids] are the contents of the root element. Which letters a section has is
    said in InkSpec, on the elements of the file. [places] and [page_stable] are laws of the engine. *)
From Coq Require Import ZArith QArith Permutation.
From Verif Require Import GoStr Num Style Class ClassView TextSpec Instr Xml Load LoadSpec LoadDocSpec LoadWit Grid Engine RefEngine Proc ProcView ProcSpec ProcWit LinesWit Lines LinesSpec LinesView DrawSpec WriteSpec WriteThms OutputSpec OutputThms SameSpec InkSpec InkThms InkWit.
Local Open Scope nat_scope.

(** C97: what processing writes on the pages, blanks aside, are the letters of the body of the
    file, in order, and nothing else, whatever the hyphenator. The same for each call of the
    header or footer. *)
Theorem C97_letters : forall (F : Num) (parse_float convert_float : bytes -> option F) order sheet_order,
  (forall pos second, map_orders (order pos second)) -> map_orders sheet_order ->
  forall hyph resolve image shuffle, (forall l, Permutation (shuffle l) l) ->
  forall (eng : Engine F), places eng -> page_stable (eng:=eng) ->
  forall toks kids doc cs depth e r (s' : PS F eng), tokens_of toks kids ->
  load F parse_float convert_float order sheet_order toks = LOk F doc cs ->
  process (loaded_env hyph resolve image shuffle doc cs) depth e = Ok r s' ->
  (forall sec out, sec = $"body" /\ out = written (ps_trace s') \/
     (exists c sub, call_in (ps_trace s') c sub /\ out = written sub /\ sec = match c with Header => $"header" | Footer => $"footer" end) ->
   plain_section parse_float convert_float (under sec kids) -> unjustified sec kids ->
   nonblank (List.concat out) = section_ink sec kids).
Proof.
  exact (fun F pf cf order sheet_order Ho Hs hyph resolve image shuffle Hsh eng Hp Hst toks kids doc cs depth e r s' Ht Hl Hr sec out H Hb =>
    proj1 (file_letters pf cf order sheet_order Ho Hs hyph resolve image shuffle Hsh Hp Hst toks kids doc cs depth e r s' Ht Hl Hr sec out H Hb)).
Qed.
Print Assumptions C97_letters.
(** With justified text, and a hyphenator that loses nothing: hyphens are inserted. *)
Theorem C97_hyphens : forall (F : Num) (parse_float convert_float : bytes -> option F) order sheet_order,
  (forall pos second, map_orders (order pos second)) -> map_orders sheet_order ->
  forall hyph resolve image shuffle, (forall l, Permutation (shuffle l) l) ->
  forall (eng : Engine F), places eng -> page_stable (eng:=eng) ->
  forall toks kids doc cs depth e r (s' : PS F eng), tokens_of toks kids ->
  load F parse_float convert_float order sheet_order toks = LOk F doc cs ->
  process (loaded_env hyph resolve image shuffle doc cs) depth e = Ok r s' ->
  (forall sec out, sec = $"body" /\ out = written (ps_trace s') \/
     (exists c sub, call_in (ps_trace s') c sub /\ out = written sub /\ sec = match c with Header => $"header" | Footer => $"footer" end) ->
   plain_section parse_float convert_float (under sec kids) -> (forall w, List.concat (hyph w) = w) ->
   hyphenated (section_ink sec kids) (nonblank (List.concat out))).
Proof.
  exact (fun F pf cf order sheet_order Ho Hs hyph resolve image shuffle Hsh eng Hp Hst toks kids doc cs depth e r s' Ht Hl Hr sec out H Hb =>
    proj2 (file_letters pf cf order sheet_order Ho Hs hyph resolve image shuffle Hsh Hp Hst toks kids doc cs depth e r s' Ht Hl Hr sec out H Hb)).
Qed.
Print Assumptions C97_hyphens.
(** A document that meets the conditions, its letters, and what is written. *)
Example C97_example : let kids := ink_kids "h-align:left" in
  plain_section sample_q sample_q (under ($"body") kids) /\ unjustified ($"body") kids /\
  plain_section sample_q sample_q (under ($"header") kids) /\ unjustified ($"header") kids /\
  section_ink ($"body") kids = $"onetwothreefourfiveabcde" /\ section_ink ($"header") kids = $"top" /\
  match sample_load (root kids) with
  | LOk _ doc cs =>
      match process (loaded_env (fun s => [s]) (fun s => s) (fun _ => None) (fun l => l) doc cs) 5 ref_start with
      | Ok None s => nonblank (List.concat (written (ps_trace s))) = $"onetwothreefourfiveabcde"
      | _ => False end
  | _ => False end.
Proof.
  cbv zeta. split; [apply plain_check; vm_compute; reflexivity|]. split; [apply unjustified_check; vm_compute; reflexivity|].
  split; [apply plain_check; vm_compute; reflexivity|]. split; [apply unjustified_check; vm_compute; reflexivity|]. vm_compute. repeat split; reflexivity.
Qed.
(** The same, with justified text and a hyphenator that splits words into letters. *)
Example C97_hyphens_example : let kids := ink_kids "h-align:block;width:4" in
  plain_section sample_q sample_q (under ($"body") kids) /\ (forall w : bytes, List.concat (map (fun c => [c]) w) = w) /\
  match sample_load (root kids) with
  | LOk _ doc cs =>
      match process (loaded_env (map (fun c => [c])) (fun s => s) (fun _ => None) (fun l => l) doc cs) 5 ref_start with
      | Ok None s => nonblank (List.concat (written (ps_trace s))) = $"on-et-woth-reefourfiveabcde"
      | _ => False end
  | _ => False end.
Proof.
  cbv zeta. split; [apply plain_check; vm_compute; reflexivity|]. split; [induction w as [|c w IH]; [reflexivity|cbn; f_equal; exact IH]|]. vm_compute. reflexivity.
Qed.
