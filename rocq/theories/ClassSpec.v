(** Independent specification of class sheets and the cascade (C22-C25). *)
From Verif Require Import GoStr Utf8 Scan Style StyleSpec.

(** ** Class sheets *)
(** A rule: class name, selector, declarations. *)
Record rule := mkRule { r_class : bytes; r_sel : option bytes; r_body : bytes }.

(** Reading of the text before '{': what precedes a colon that is not in first position is
    the class name, what follows it the selector. *)
Definition head_reads (head cls : bytes) (sel : option bytes) : Prop :=
  let h := trim is_ws head in
  h <> [] /\
  match sel with
  | Some s => cls <> [] /\ ~ In ":"%char cls /\ h = cls ++ ":"%char :: s
  | None => cls = h /\ (~ In ":"%char h \/ exists t, h = ":"%char :: t)
  end.

(** [s] is the text of the rules [l]: heads up to '{', bodies up to the next '}', and a rest
    without '{'. *)
Inductive sheet : bytes -> list rule -> Prop :=
| sheet_end s : ~ In "{"%char s -> sheet s []
| sheet_rule head body cls sel s l :
    ~ In "{"%char head -> ~ In "}"%char body -> head_reads head cls sel ->
    sheet s l -> sheet (head ++ "{"%char :: body ++ "}"%char :: s) (mkRule cls sel body :: l).

(** White space control characters count as blanks. *)
Definition no_controls (s : bytes) : bytes :=
  map (fun c => if Ascii.eqb c cr || Ascii.eqb c lf || Ascii.eqb c tab then sp else c) s.

Definition is_base (n : bytes) (r : rule) : bool :=
  beqb (r_class r) n && match r_sel r with None => true | Some _ => false end.
Definition is_sel (n s : bytes) (r : rule) : bool :=
  beqb (r_class r) n && match r_sel r with Some s' => beqb s' s | None => false end.

(** The last rule with property [f], and the rules after it. *)
Fixpoint find_last (f : rule -> bool) (l : list rule) : option (rule * list rule) :=
  match l with
  | [] => None
  | r :: l' => match find_last f l' with
               | Some x => Some x
               | None => if f r then Some (r, l') else None
               end
  end.
(** The declarations in force for class [n], and for its selector [s]: the last plain rule of
    the class, and the last selector rule after it. *)
Definition class_rule (l : list rule) (n : bytes) : option bytes :=
  option_map (fun x => r_body (fst x)) (find_last (is_base n) l).
Definition selector_rule (l : list rule) (n s : bytes) : option bytes :=
  match find_last (is_base n) l with
  | None => None
  | Some (_, after) => option_map (fun x => r_body (fst x)) (find_last (is_sel n s) after)
  end.
(** Every selector rule is preceded by a plain rule of its class. *)
Definition selectors_based (l : list rule) : Prop :=
  forall l1 r l2 s, l = l1 ++ r :: l2 -> r_sel r = Some s -> existsb (is_base (r_class r)) l1 = true.

(** ** Cascade *)
Section Cascade.
Variable F : Type.
Variables parse_float convert_float : bytes -> option F.

(** The style text [s] sets [p] to [x]. *)
Definition sets (s : bytes) (p : prop) (x : gval F) : Prop :=
  exists v, last_decl (items s) (prop_name p) v /\ prop_value parse_float convert_float p v = Some x.
(** Among the texts [l] the last one that sets [p] sets it to [x]. *)
Definition last_sets (l : list bytes) (p : prop) (x : gval F) : Prop :=
  exists l1 s l2, l = l1 ++ s :: l2 /\ sets s p x /\ forall s' y, In s' l2 -> ~ sets s' p y.
(** [s'] is [s] with the texts [l] applied, later ones winning. *)
Definition cascades (l : list bytes) (s s' : Styles F) : Prop :=
  forall p, (forall x, last_sets l p x -> prop_get p s' = x) /\
            ((forall x, ~ last_sets l p x) -> prop_get p s' = prop_get p s).
End Cascade.
Arguments cascades {F}. Arguments last_sets {F}. Arguments sets {F}.

Definition opt_list {A} (o : option A) : list A := match o with Some x => [x] | None => [] end.
(** The texts that apply to an element: those of its classes in order, then its styles. *)
Definition sources (rules : list rule) (classes styles : list bytes) : list bytes :=
  flat_map (fun n => opt_list (class_rule rules n)) classes ++ styles.
(** With a selector, a class that has it contributes the selector's text instead. *)
Definition sources_sel (rules : list rule) (sel : bytes) (classes styles : list bytes) : list bytes :=
  flat_map (fun n => opt_list (match selector_rule rules n sel with Some b => Some b | None => class_rule rules n end)) classes ++ styles.

(** Attribute values by name, in order. *)
Definition attr_values (name : bytes) (attrs : list (bytes * bytes)) : list bytes :=
  map snd (filter (fun a => beqb (fst a) name) attrs).

(** [s] is the text of the words [ws]: separated, and possibly surrounded, by white space. *)
Inductive words : list N -> list (list N) -> Prop :=
| words_nil sp : Forall white_space sp -> words sp []
| words_cons sp w rest ws :
    Forall white_space sp -> w <> [] -> Forall (fun r => ~ white_space r) w ->
    match rest with [] => True | r :: _ => white_space r end ->
    words rest ws -> words (sp ++ w ++ rest) (w :: ws).
