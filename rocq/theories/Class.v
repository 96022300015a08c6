(** Model of style/class.go and xdoc/style.go. *)
From Verif Require Import GoStr Utf8 Scan Style.

Section Class.
Variable F : Type.
Variables parse_float convert_float : bytes -> option F.
Notation mutator := (mutator F).

(** style/class.go:13-24. A Class is its mutator and its map of selectors; the Name fields,
    which repeat the map keys, are left out. *)
Record Class := mkClass { cl_mutator : mutator; cl_selectors : list (bytes * mutator) }.
Definition Classes := list (bytes * Class).

(** style/class.go:26-28 *)
Definition class_mutate (c : Class) (s : Styles F) : option (Styles F) := mutate (cl_mutator c) s.
(** style/class.go:30-37 *)
Definition class_mutate_sel (sel : bytes) (c : Class) (s : Styles F) : option (Styles F) :=
  match map_get sel (cl_selectors c) with
  | Some m => mutate m s
  | None => mutate (cl_mutator c) s
  end.
(** style/class.go:39-45 *)
Fixpoint classes_mutate (cs : Classes) (use : list bytes) (s : Styles F) : option (Styles F) :=
  match use with
  | [] => Some s
  | cn :: use' =>
      match map_get cn cs with
      | Some c => match class_mutate c s with Some s' => classes_mutate cs use' s' | None => None end
      | None => classes_mutate cs use' s
      end
  end.
(** style/class.go:47-53 *)
Fixpoint classes_mutate_sel (sel : bytes) (cs : Classes) (use : list bytes) (s : Styles F) : option (Styles F) :=
  match use with
  | [] => Some s
  | cn :: use' =>
      match map_get cn cs with
      | Some c => match class_mutate_sel sel c s with Some s' => classes_mutate_sel sel cs use' s' | None => None end
      | None => classes_mutate_sel sel cs use' s
      end
  end.

(** Outcome of DecodeClasses: result, error, run-time panic, or out of fuel. *)
Inductive cres := COk (cs : Classes) | CErr | CPanic | CFuel.

(** style/class.go:62-64 *)
Definition blank_controls (s : bytes) : bytes :=
  let s := replace_all s [cr] [sp] in
  let s := replace_all s [lf] [sp] in
  replace_all s [tab] [sp].

(** style/class.go:86-109: store the rule [name]{[mut]}. The Selectors map of a class is
    shared by reference, so the assignment at :93 is visible in [cs]. The message printed at
    :97 is in ClassOut.v. *)
Definition add_rule (name : bytes) (mut : mutator) (cs : Classes) : option Classes :=
  match index_byte colon name with                                     (* :88 *)
  | Some (S i) =>                                                      (* :89 *)
      let className := firstn (S i) name in                            (* :90 *)
      let selName := skipn (S (S i)) name in                           (* :91 *)
      match map_get className cs with                                  (* :92-96 *)
      | Some cl => Some (map_set className (mkClass (cl_mutator cl) (map_set selName mut (cl_selectors cl))) cs)
      | None => None                                                   (* :98-100 *)
      end
  | _ => Some (map_set name (mkClass mut []) cs)                       (* :101-109 *)
  end.

Section Loop.
(** Iteration order of the map in the call of DecodeMutator made at text position [pos]. *)
Variable shuffle : nat -> rawmap -> rawmap.

(** style/class.go:67-111, one iteration per unit of fuel. *)
Fixpoint decode_classes_go (fuel : nat) (s : bytes) (pos : nat) (cs : Classes) : cres :=
  match fuel with
  | O => CFuel
  | S fuel' =>
  match slice s pos (List.length s) with                               (* :68 *)
  | None => CPanic
  | Some curr =>
  match index_byte "{"%char curr with                                  (* :69 *)
  | None => COk cs                                                     (* :70-72 *)
  | Some i =>
  match slice curr 0 i with                                            (* :73 *)
  | None => CPanic
  | Some head =>
  let name := trim is_ws head in
  match name with
  | [] => CErr                                                         (* :74-76 *)
  | _ =>
  match slice curr i (List.length curr) with                           (* :77 *)
  | None => CPanic
  | Some from =>
  match index_byte "}"%char from with
  | None => CErr                                                       (* :78-80 *)
  | Some k =>
  let inn := k + i in                                                  (* :81 *)
  match slice curr (i + 1) inn with                                    (* :82 *)
  | None => CPanic
  | Some body =>
  match decode_mutator F parse_float convert_float (shuffle pos) body with
  | None => CErr                                                       (* :83-85 *)
  | Some mut =>
  match add_rule name mut cs with
  | None => CErr
  | Some cs' => decode_classes_go fuel' s (pos + (inn + 1)) cs'        (* :110 *)
  end end end end end end end end end end.

(** style/class.go:55-112 DecodeClasses; the reader is given by its contents. *)
Definition decode_classes (s : bytes) : cres :=
  let s := blank_controls s in
  decode_classes_go (S (List.length s)) s 0 [].
End Loop.

(** ** xdoc/style.go *)
(** xdoc/style.go:12-15 *)
Record Styled := mkStyled { st_mutators : list mutator; st_classes : list bytes }.

(** A string cut into the bytes of its runes (for i, r := range s). *)
Fixpoint chunks_go (skip : nat) (s : bytes) : list (N * bytes) :=
  match s with
  | [] => []
  | c :: s' =>
      match skip with
      | S k => chunks_go k s'
      | O => let '(r, k) := decode_first c s' in (r, c :: firstn k s') :: chunks_go k s'
      end
  end.
Definition chunks (s : bytes) : list (N * bytes) := chunks_go 0 s.
(** strings.Fields: maximal runs of non-space runes (unicode.IsSpace). *)
Fixpoint fields_go (cur : bytes) (l : list (N * bytes)) : list bytes :=
  match l with
  | [] => match cur with [] => [] | _ => [cur] end
  | (r, b) :: l' =>
      if is_space r then match cur with [] => fields_go [] l' | _ => cur :: fields_go [] l' end
      else fields_go (cur ++ b) l'
  end.
Definition fields (s : bytes) : list bytes := fields_go [] (chunks s).

(** xdoc/style.go:17-30 DecodeAttrs on the attributes (local name, value); the element starts
    without classes and styles. [shuffle n] is the map order of the call for the n-th
    attribute. *)
Fixpoint decode_attrs_go (shuffle : nat -> rawmap -> rawmap) (n : nat) (attrs : list (bytes * bytes)) (st : Styled) : option Styled :=
  match attrs with
  | [] => Some st
  | (name, v) :: attrs' =>
      if beqb name ($"style") then
        match decode_mutator F parse_float convert_float (shuffle n) v with
        | None => None
        | Some m => decode_attrs_go shuffle (S n) attrs' (mkStyled (st_mutators st ++ [m]) (st_classes st))
        end
      else if beqb name ($"class") then
        decode_attrs_go shuffle (S n) attrs' (mkStyled (st_mutators st) (st_classes st ++ fields v))
      else decode_attrs_go shuffle (S n) attrs' st
  end.
Definition decode_attrs shuffle (attrs : list (bytes * bytes)) : option Styled :=
  decode_attrs_go shuffle 0 attrs (mkStyled [] []).

Fixpoint mutate_all (ms : list mutator) (s : Styles F) : option (Styles F) :=
  match ms with
  | [] => Some s
  | m :: ms' => match mutate m s with Some s' => mutate_all ms' s' | None => None end
  end.
(** xdoc/style.go:32-39 MutatedStyles. [None] is a panic. *)
Definition mutated_styles (cs : Classes) (st : Styled) (s : Styles F) : option (Styles F) :=
  match classes_mutate cs (st_classes st) s with
  | Some s' => mutate_all (st_mutators st) s'
  | None => None
  end.
(** xdoc/style.go:41-48 MutatedStylesWithSelector *)
Definition mutated_styles_sel (sel : bytes) (cs : Classes) (st : Styled) (s : Styles F) : option (Styles F) :=
  match classes_mutate_sel sel cs (st_classes st) s with
  | Some s' => mutate_all (st_mutators st) s'
  | None => None
  end.
End Class.
Arguments COk {F}. Arguments CErr {F}. Arguments CPanic {F}. Arguments CFuel {F}.
Arguments mkClass {F}. Arguments cl_mutator {F}. Arguments cl_selectors {F}.
Arguments mkStyled {F}. Arguments st_mutators {F}. Arguments st_classes {F}.
Arguments mutated_styles {F}. Arguments mutated_styles_sel {F}.
