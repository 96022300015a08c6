(** Loading under two map orders (C95). *)
From Coq Require Import Permutation ZArith.
From Verif Require Import GoStr Utf8 Scan Num Style StyleFacts Class ClassView Instr Xml Load LoadThms Engine Grid Proc SameSpec SameRun.
Local Open Scope nat_scope.

Section Load.
Context {F : Num}.
Variables parse_float convert_float : bytes -> option F.
Definition msame (m1 m2 : mutator F) : Prop := forall s, mutate m1 s = mutate m2 s.
Definition stsame (st1 st2 : Styled F) : Prop := Forall2 msame (st_mutators st1) (st_mutators st2) /\ st_classes st1 = st_classes st2.
Definition osame {A} (P : A -> A -> Prop) (a b : option A) : Prop := match a, b with Some x, Some y => P x y | None, None => True | _, _ => False end.
Local Notation decode_mutator := (decode_mutator F parse_float convert_float).

Lemma decode_same : forall sh1 sh2 s, map_order sh1 -> map_order sh2 -> osame msame (decode_mutator sh1 s) (decode_mutator sh2 s).
Proof.
  intros sh1 sh2 s H1 H2. assert (H := decode_order F parse_float convert_float s sh1 sh2 H1 H2).
  destruct (decode_mutator sh1 s), (decode_mutator sh2 s); try exact H. intro st. destruct (H st) as (st' & -> & ->). reflexivity.
Qed.

(** ** Classes *)
Definition assoc {V} (P : V -> V -> Prop) : list (bytes * V) -> list (bytes * V) -> Prop := Forall2 (fun p q => fst p = fst q /\ P (snd p) (snd q)).
Lemma get_same : forall {V} (P : V -> V -> Prop) l l' k, assoc P l l' -> osame P (map_get k l) (map_get k l').
Proof.
  intros V P l l' k H. induction H as [|[a x] [b y] l l' [E Hx] _ IH]; [exact I|]. cbn in E, Hx. subst b. cbn [map_get]. destruct (beqb _ _); [exact Hx|exact IH].
Qed.
Lemma set_same : forall {V} (P : V -> V -> Prop) k x y l l', P x y -> assoc P l l' -> assoc P (map_set k x l) (map_set k y l').
Proof.
  intros V P k x y l l' Hx H. induction H as [|[a u] [b v] l l' [E Hu] H IH]; [constructor; [split; [reflexivity|exact Hx]|constructor]|].
  cbn in E, Hu. subst b. cbn [map_set]. destruct (beqb _ _); constructor; try (split; [reflexivity|assumption]); assumption.
Qed.
Definition clsame (c1 c2 : Class F) : Prop := msame (cl_mutator c1) (cl_mutator c2) /\ assoc msame (cl_selectors c1) (cl_selectors c2).
Lemma add_rule_same : forall name m1 m2 cs1 cs2, msame m1 m2 -> assoc clsame cs1 cs2 -> osame (assoc clsame) (add_rule F name m1 cs1) (add_rule F name m2 cs2).
Proof.
  intros name m1 m2 cs1 cs2 Hm H. unfold add_rule.
  assert (N : assoc clsame (map_set name (mkClass m1 []) cs1) (map_set name (mkClass m2 []) cs2)) by (apply set_same; [split; [exact Hm|constructor]|exact H]).
  destruct (index_byte colon name) as [[|i]|]; [exact N| |exact N].
  assert (G := get_same clsame cs1 cs2 (firstn (S i) name) H). destruct (map_get _ cs1) as [c1|], (map_get _ cs2) as [c2|]; try contradiction; [|exact I].
  cbn [osame] in *. destruct G as [G1 G2]. apply set_same; [|exact H]. split; [exact G1|]. cbn. apply set_same; assumption.
Qed.
Definition csame (r1 r2 : cres F) : Prop := match r1, r2 with COk a, COk b => assoc clsame a b | CErr, CErr | CPanic, CPanic | CFuel, CFuel => True | _, _ => False end.
Lemma classes_go_same : forall sh1 sh2, map_orders sh1 -> map_orders sh2 -> forall fuel s pos cs1 cs2, assoc clsame cs1 cs2 ->
  csame (decode_classes_go F parse_float convert_float sh1 fuel s pos cs1) (decode_classes_go F parse_float convert_float sh2 fuel s pos cs2).
Proof.
  intros sh1 sh2 H1 H2. induction fuel as [|fuel IH]; intros s pos cs1 cs2 H; [exact I|]. cbn [decode_classes_go].
  destruct (slice s pos _) as [curr|]; [|exact I]. destruct (index_byte _ curr) as [i|]; [|exact H]. destruct (slice curr 0 i) as [head|]; [|exact I].
  destruct (trim is_ws head) as [|c name]; [exact I|]. destruct (slice curr i _) as [from|]; [|exact I]. destruct (index_byte _ from) as [k|]; [|exact I].
  destruct (slice curr _ _) as [body|]; [|exact I]. assert (D := decode_same (sh1 pos) (sh2 pos) body (H1 pos) (H2 pos)).
  destruct (decode_mutator _ body) as [m1|], (decode_mutator _ body) as [m2|]; try contradiction; [|exact I]. cbn [osame] in D.
  assert (A := add_rule_same (c :: name) m1 m2 cs1 cs2 D H). destruct (add_rule F _ m1 cs1) as [cs1'|], (add_rule F _ m2 cs2) as [cs2'|]; try contradiction; [apply IH, A|exact I].
Qed.
Lemma classes_mutate_same : forall cs1 cs2, assoc clsame cs1 cs2 -> forall use s, classes_mutate F cs1 use s = classes_mutate F cs2 use s.
Proof.
  intros cs1 cs2 H. induction use as [|c use IH]; intro s; [reflexivity|]. cbn [classes_mutate]. assert (G := get_same clsame cs1 cs2 c H).
  destruct (map_get c cs1) as [c1|], (map_get c cs2) as [c2|]; try contradiction; [|apply IH]. unfold class_mutate. rewrite (proj1 G). destruct (mutate _ s); [apply IH|reflexivity].
Qed.
Lemma classes_mutate_sel_same : forall sel cs1 cs2, assoc clsame cs1 cs2 -> forall use s, classes_mutate_sel F sel cs1 use s = classes_mutate_sel F sel cs2 use s.
Proof.
  intros sel cs1 cs2 H. induction use as [|c use IH]; intro s; [reflexivity|]. cbn [classes_mutate_sel]. assert (G := get_same clsame cs1 cs2 c H).
  destruct (map_get c cs1) as [c1|], (map_get c cs2) as [c2|]; try contradiction; [|apply IH]. destruct G as [G1 G2].
  assert (E : class_mutate_sel F sel c1 s = class_mutate_sel F sel c2 s).
  { unfold class_mutate_sel. assert (G := get_same msame _ _ sel G2). destruct (map_get sel (cl_selectors c1)), (map_get sel (cl_selectors c2)); try contradiction; [apply G|apply G1]. }
  rewrite E. destruct (class_mutate_sel F sel c2 s); [apply IH|reflexivity].
Qed.
Lemma mutate_all_same : forall l l', Forall2 msame l l' -> forall s, mutate_all F l s = mutate_all F l' s.
Proof. induction 1 as [|m m' l l' Hm _ IH]; intro s; [reflexivity|]. cbn [mutate_all]. rewrite Hm. destruct (mutate m' s); [apply IH|reflexivity]. Qed.

(** ** Elements *)
Variables order1 order2 : nat -> bool -> nat -> rawmap -> rawmap.
Variables sheet1 sheet2 : nat -> rawmap -> rawmap.
Hypothesis Ho1 : forall pos b, map_orders (order1 pos b).
Hypothesis Ho2 : forall pos b, map_orders (order2 pos b).
Hypothesis Hs1 : map_orders sheet1.
Hypothesis Hs2 : map_orders sheet2.
Local Notation al := (alike stsame).
Local Notation als := (Forall2 (alike stsame)).

Lemma attrs_same : forall sh1 sh2, map_orders sh1 -> map_orders sh2 -> forall a n st1 st2, stsame st1 st2 ->
  osame stsame (decode_attrs_go F parse_float convert_float sh1 n a st1) (decode_attrs_go F parse_float convert_float sh2 n a st2).
Proof.
  intros sh1 sh2 H1 H2. induction a as [|[k v] a IH]; intros n st1 st2 H; [exact H|]. cbn [decode_attrs_go]. destruct (beqb k _).
  - assert (D := decode_same (sh1 n) (sh2 n) v (H1 n) (H2 n)). destruct (decode_mutator (sh1 n) v), (decode_mutator (sh2 n) v); try contradiction; [|exact I].
    apply IH. split; [|apply H]. cbn. apply Forall2_app; [apply H|]. constructor; [exact D|constructor].
  - destruct (beqb k _); apply IH; [|exact H]. split; [apply H|]. cbn. rewrite (proj2 H). reflexivity.
Qed.
Lemma styled_same : forall pos b a st1 st2, stsame st1 st2 ->
  osame stsame (decode_styled F parse_float convert_float order1 pos b a st1) (decode_styled F parse_float convert_float order2 pos b a st2).
Proof. intros. apply attrs_same; auto. Qed.
Lemma stsame_refl : forall st, stsame st st.
Proof. intros [ms cs]. split; [|reflexivity]. cbn. induction ms; constructor; [intro; reflexivity|assumption]. Qed.

Definition rsame {A} (P : A -> A -> Prop) (r1 r2 : Xml.res A) : Prop :=
  match r1, r2 with Got a d, Got b d' => P a b /\ d = d' | Fail d, Fail d' => d = d' | Fuel, Fuel => True | _, _ => False end.
Lemma rsame_eq : forall {A} (P : A -> A -> Prop) r, (forall a, P a a) -> rsame P r r.
Proof. intros A P [a d|d|] H; cbn; auto. Qed.
Lemma token_same : forall {A} (P : A -> A -> Prop) name s1 s2 ch1 ch2,
  (forall pos n a x y d, P x y -> rsame P (s1 pos n a x d) (s2 pos n a y d)) -> (forall t x y, P x y -> P (ch1 t x) (ch2 t y)) ->
  forall fuel x y d, P x y -> rsame P (token_loop name s1 ch1 fuel x d) (token_loop name s2 ch2 fuel y d).
Proof.
  intros A P name s1 s2 ch1 ch2 Hs Hc. induction fuel as [|fuel IH]; intros x y d H; [exact I|]. cbn [token_loop].
  destruct (next d) as [[[pos n a|n|t|]|] d']; [| | | |reflexivity].
  - specialize (Hs pos n a x y d' H). destruct (s1 pos n a x d'), (s2 pos n a y d'); try contradiction; [|exact Hs|exact I]. destruct Hs as [H1 <-]. apply IH, H1.
  - destruct (beqb n name); [split; [exact H|reflexivity]|apply IH, H].
  - apply IH, Hc, H.
  - apply IH, H.
Qed.
Definition fsame {A} (P : A -> A -> Prop) (f g : option (decoder -> Xml.res A)) : Prop :=
  match f, g with Some f, Some g => forall d, rsame P (f d) (g d) | None, None => True | _, _ => False end.
Lemma fields_same : forall {A} (P : A -> A -> Prop) f1 f2 ch,
  (forall pos n a x y, P x y -> fsame P (f1 pos n a x) (f2 pos n a y)) -> (forall t x y, P x y -> P (ch t x) (ch t y)) ->
  forall fuel x y d, P x y -> rsame P (fields_loop f1 ch fuel x d) (fields_loop f2 ch fuel y d).
Proof.
  intros A P f1 f2 ch Hs Hc. induction fuel as [|fuel IH]; intros x y d H; [exact I|]. cbn [fields_loop].
  destruct (next d) as [[[pos n a|n|t|]|] d']; [| | | |reflexivity].
  - specialize (Hs pos n a x y H). destruct (f1 pos n a x) as [f|], (f2 pos n a y) as [g|]; try contradiction.
    + specialize (Hs d'). destruct (f d'), (g d'); try contradiction; [|exact Hs|exact I]. destruct Hs as [H1 <-]. apply IH, H1.
    + destruct (skip d') as [u d2|d2|]; [apply IH, H|reflexivity|exact I].
  - split; [exact H|reflexivity].
  - apply IH, Hc, H.
  - apply IH, H.
Qed.
Lemma interface_same : forall {A} (P : A -> A -> Prop) f g, (forall d, rsame P (f d) (g d)) -> forall d, rsame P (unmarshal_interface f d) (unmarshal_interface g d).
Proof.
  intros A P f g H d. unfold unmarshal_interface. specialize (H (mkDec (d_toks d) (push_eof (d_stk d)))). destruct (f _), (g _); try contradiction; cbn [rsame] in H.
  - destruct H as [H <-]. destruct (pop_eof _) as [[] s]; cbn; auto.
  - subst. reflexivity.
  - exact I.
Qed.
Lemma map_same : forall {A B} (P : A -> A -> Prop) (Q : B -> B -> Prop) f g r1 r2, rsame P r1 r2 -> (forall x y, P x y -> Q (f x) (g y)) -> rsame Q (map_res f r1) (map_res g r2).
Proof. intros A B P Q f g r1 r2 H Hf. destruct r1, r2; try contradiction; [|exact H|exact I]. destruct H as [H <-]. split; [apply Hf, H|reflexivity]. Qed.

Section Methods.
Variables dec1 dec2 : nat -> bytes -> attrs -> decoder -> Xml.res (instr F).
Hypothesis Hdec : forall pos n a d, rsame al (dec1 pos n a d) (dec2 pos n a d).
Lemma text_block_same : forall t l l', als l l' -> als (text_block F t l) (text_block F t l').
Proof. intros [|c t] l l' H; [exact H|]. apply Forall2_app; [exact H|]. repeat constructor. Qed.
Ltac decs pos n a d := let D := fresh in assert (D := Hdec pos n a d); destruct (dec1 pos n a d), (dec2 pos n a d); try contradiction; [|exact D|exact I]; destruct D as [D <-].
Lemma snoc : forall {A} (P : A -> A -> Prop) l l' x y, Forall2 P l l' -> P x y -> Forall2 P (l ++ [x]) (l' ++ [y]).
Proof. intros. apply Forall2_app; [assumption|]. constructor; [assumption|constructor]. Qed.
Lemma instructions_same : forall name l l' d, als l l' -> rsame als (instructions_loop F dec1 name l d) (instructions_loop F dec2 name l' d).
Proof.
  intros name l l' d H. apply token_same; [|apply text_block_same|exact H]. intros pos n a x y d' Hx. decs pos n a d'. split; [apply snoc; assumption|reflexivity].
Qed.
Lemma table_same : forall name d, rsame (Forall2 (arow stsame)) (table_loop F dec1 name d) (table_loop F dec2 name d).
Proof.
  intros name d. apply token_same; [|auto|constructor]. intros pos n a x y d' Hx. decs pos n a d'. destruct H; try (split; [exact Hx|reflexivity]).
  split; [apply snoc; assumption|reflexivity].
Qed.
Lemma row_same : forall name d, rsame (Forall2 (acell stsame)) (row_loop F dec1 name d) (row_loop F dec2 name d).
Proof.
  intros name d. apply token_same; [|auto|constructor]. intros pos n a x y d' Hx. decs pos n a d'. destruct H; try (split; [exact Hx|reflexivity]).
  split; [apply snoc; assumption|reflexivity].
Qed.
Lemma cell_same : forall name d, rsame als (cell_loop F dec1 name d) (cell_loop F dec2 name d).
Proof.
  intros name d. apply token_same; [|apply text_block_same|constructor]. intros pos n a x y d' Hx. assert (D := Hdec pos n a d'). destruct (dec1 pos n a d'), (dec2 pos n a d'); try contradiction; [| |exact I].
  - destruct D as [D <-]. split; [apply snoc; assumption|reflexivity].
  - split; assumption.
Qed.
Lemma part_same : forall name d, rsame als (part_loop F dec1 name d) (part_loop F dec2 name d).
Proof.
  intros name d. apply token_same; [|auto|constructor]. intros pos n a x y d' Hx. assert (D := Hdec pos n a d'). destruct (dec1 pos n a d'), (dec2 pos n a d'); try contradiction; [| |exact I].
  - destruct D as [D <-]. split; [apply snoc; assumption|reflexivity].
  - split; assumption.
Qed.
Definition gsame (p q : list (xgridrow F) * list (xgridpart F)) : Prop := Forall2 (agrid stsame) (fst p) (fst q) /\ Forall2 (apart stsame) (snd p) (snd q).
Lemma grid_same : forall name d, rsame gsame (grid_loop F dec1 name d) (grid_loop F dec2 name d).
Proof.
  intros name d. apply token_same; [|auto|split; constructor]. intros pos n a x y d' Hx. assert (D := Hdec pos n a d'). destruct (dec1 pos n a d'), (dec2 pos n a d'); try contradiction; [| |exact I].
  - destruct D as [D <-]. destruct D; try (split; [exact Hx|reflexivity]).
    + split; [|reflexivity]. split; cbn; [apply snoc; [apply Hx|assumption]|apply Hx].
    + split; [|reflexivity]. split; cbn; [apply Hx|apply snoc; [apply Hx|assumption]].
  - split; assumption.
Qed.
Lemma grid_valid_same : forall p q, gsame p q -> grid_valid F (fst p) (snd p) = grid_valid F (fst q) (snd q).
Proof.
  intros p q [H1 H2]. unfold grid_valid.
  assert (EX : forall area r r', Forall2 (agrid stsame) r r' -> existsb (fun r => existsb (beqb area) (gr_areas r)) r = existsb (fun r => existsb (beqb area) (gr_areas r)) r').
  { intros area r r' H. induction H as [|x y l l' Hx _ IH]; [reflexivity|]. cbn [existsb]. rewrite IH. destruct Hx. reflexivity. }
  assert (EL : forall k r r', Forall2 (agrid stsame) r r' -> forallb (fun r => Nat.eqb (List.length (gr_areas r)) k) r = forallb (fun r => Nat.eqb (List.length (gr_areas r)) k) r').
  { intros k r r' H. induction H as [|x y l l' Hx _ IH]; [reflexivity|]. cbn [forallb]. rewrite IH. destruct Hx. reflexivity. }
  assert (EP : forallb (fun x => match x with XGridPart _ area _ => existsb (fun r => existsb (beqb area) (gr_areas r)) (fst p) end) (snd p) =
               forallb (fun x => match x with XGridPart _ area _ => existsb (fun r => existsb (beqb area) (gr_areas r)) (fst q) end) (snd q)).
  { induction H2 as [|x y l l' Hx _ IH]; [reflexivity|]. cbn [forallb]. rewrite IH. destruct Hx. rewrite (EX _ _ _ H1). reflexivity. }
  destruct H1 as [|x y l l' Hx H1]; [reflexivity|]. rewrite EP. assert (E : List.length (gr_areas x) = List.length (gr_areas y)) by (destruct Hx; reflexivity).
  rewrite E, (EL _ (x :: l) (y :: l')); [reflexivity|]. constructor; assumption.
Qed.
Lemma unmarshal_grid_same : forall name d, rsame gsame (unmarshal_grid F dec1 name d) (unmarshal_grid F dec2 name d).
Proof.
  intros name d. unfold unmarshal_grid. assert (G := grid_same name d). destruct (grid_loop F dec1 name d) as [p d1|d1|], (grid_loop F dec2 name d) as [q d2|d2|]; try contradiction; [|exact G|exact I].
  destruct G as [G <-]. assert (V := grid_valid_same p q G). destruct p as [r1 p1], q as [r2 p2]. cbn [fst snd] in V. rewrite V.
  destruct (grid_valid F r2 p2); [split; [exact G|reflexivity]|reflexivity].
Qed.
Lemma unmarshal_instructions_same : forall pos name a d,
  rsame als (unmarshal_instructions F parse_float convert_float order1 dec1 pos name a d) (unmarshal_instructions F parse_float convert_float order2 dec2 pos name a d).
Proof.
  intros pos name a d. unfold unmarshal_instructions. assert (S := styled_same pos false a _ _ (stsame_refl (no_styles F))).
  destruct (decode_styled _ _ _ order1 _ _ _ _), (decode_styled _ _ _ order2 _ _ _ _); try contradiction; [|reflexivity]. apply instructions_same. constructor.
Qed.
Lemma attrs_then : forall {A} (P : A -> A -> Prop) r1 r2 f g, rsame P r1 r2 -> (forall x y, P x y -> osame al (f x) (g y)) -> rsame al (with_attrs F r1 f) (with_attrs F r2 g).
Proof.
  intros A P r1 r2 f g H Hf. destruct r1, r2; try contradiction; [|exact H|exact I]. destruct H as [H <-]. cbn [with_attrs]. specialize (Hf _ _ H). destruct (f a), (g a0); try contradiction; [split; [exact Hf|reflexivity]|reflexivity].
Qed.
Lemma styled_as_same : forall pos a st1 st2 (f g : Styled F -> instr F), stsame st1 st2 -> (forall x y, stsame x y -> al (f x) (g y)) ->
  osame al (styled_as F parse_float convert_float order1 pos a st1 f) (styled_as F parse_float convert_float order2 pos a st2 g).
Proof.
  intros pos a st1 st2 f g H Hf. unfold styled_as. assert (S := styled_same pos true a _ _ H).
  destruct (decode_styled _ _ _ order1 _ _ _ _), (decode_styled _ _ _ order2 _ _ _ _); try contradiction; [apply Hf, S|exact I].
Qed.
Lemma leaf_same : forall d, rsame eq (styled_leaf F d) (styled_leaf F d).
Proof. intro d. apply rsame_eq. reflexivity. Qed.
Lemma registered_same : forall pos name a d,
  rsame al (decode_registered F parse_float convert_float order1 dec1 pos name a d) (decode_registered F parse_float convert_float order2 dec2 pos name a d).
Proof.
  intros pos name a d. unfold decode_registered.
  assert (P : forall i, al i i -> rsame al (with_attrs F (plain_leaf d) (fun _ => Some i)) (with_attrs F (plain_leaf d) (fun _ => Some i))).
  { intros i Hi. apply (attrs_then eq); [apply rsame_eq; reflexivity|]. intros. exact Hi. }
  destruct (beqb name _).
  { apply (attrs_then eq); [apply leaf_same|]. intros [st t] ? <-. apply styled_as_same; [apply stsame_refl|]. intros. constructor. assumption. }
  destruct (beqb name _).
  { apply (attrs_then als); [apply interface_same; intro; apply unmarshal_instructions_same|]. intros. apply styled_as_same; [apply stsame_refl|]. intros. constructor; assumption. }
  destruct (beqb name _).
  { apply (attrs_then als); [apply interface_same; intro; apply unmarshal_instructions_same|]. intros. apply styled_as_same; [apply stsame_refl|]. intros. constructor; assumption. }
  destruct (beqb name _). { destruct (float_attr _ _ _ a zero); [apply P; constructor|reflexivity]. }
  destruct (beqb name _). { destruct (float_attr _ _ _ a zero); [apply P; constructor|reflexivity]. }
  destruct (beqb name _). { destruct (float_attr _ _ _ a zero); [apply P; constructor|reflexivity]. }
  destruct (beqb name _).
  { apply (attrs_then eq); [apply leaf_same|]. intros [st t] ? <-. apply styled_as_same; [apply stsame_refl|]. intros. constructor. assumption. }
  destruct (beqb name _).
  { apply (attrs_then (Forall2 (arow stsame))); [apply interface_same; intro; apply table_same|]. intros. destruct (Load.repeat_header a 0); [|exact I].
    apply styled_as_same; [apply stsame_refl|]. intros. constructor; assumption. }
  destruct (beqb name _).
  { apply (attrs_then (Forall2 (acell stsame))); [apply interface_same; intro; apply row_same|]. intros.
    apply styled_as_same; [apply stsame_refl|]. intros. constructor. constructor; assumption. }
  destruct (beqb name _).
  { apply (attrs_then als); [apply interface_same; intro; apply cell_same|]. intros. destruct (decode_spans a 0 0) as [[cs rs]|]; [|exact I].
    apply styled_as_same; [apply stsame_refl|]. intros. constructor. constructor; assumption. }
  destruct (beqb name _).
  { apply (attrs_then gsame); [apply interface_same; intro; apply unmarshal_grid_same|]. intros [r1 p1] [r2 p2] [G1 G2].
    apply styled_as_same; [apply stsame_refl|]. intros. constructor; assumption. }
  destruct (beqb name _).
  { apply (attrs_then eq); [apply rsame_eq; reflexivity|]. intros x ? <-. apply styled_as_same; [apply stsame_refl|]. intros. constructor. constructor. assumption. }
  destruct (beqb name _).
  { apply (attrs_then als); [apply interface_same; intro; apply part_same|]. intros. apply styled_as_same; [apply stsame_refl|]. intros. constructor. constructor; assumption. }
  destruct (beqb name _).
  { apply (attrs_then eq); [apply leaf_same|]. intros [st t] ? <-. apply styled_as_same; [apply stsame_refl|]. intros. constructor. assumption. }
  destruct (beqb name _); [apply P; constructor|]. destruct (beqb name _); [apply P; constructor|]. reflexivity.
Qed.
End Methods.
Lemma instruction_same : forall depth pos name a d,
  rsame al (decode_instruction F parse_float convert_float order1 depth pos name a d) (decode_instruction F parse_float convert_float order2 depth pos name a d).
Proof. induction depth as [|n IH]; intros; [exact I|]. cbn [decode_instruction]. apply registered_same, IH. Qed.
Definition dsame (x y : Document F) : Prop :=
  doc_meta F x = doc_meta F y /\ doc_page F x = doc_page F y /\ doc_style F x = doc_style F y /\
  als (doc_header F x) (doc_header F y) /\ als (doc_footer F x) (doc_footer F y) /\ als (doc_body F x) (doc_body F y).
Lemma section_same : forall depth pos n a l l' d, als l l' ->
  rsame als (section_field F parse_float convert_float order1 depth pos n a l d) (section_field F parse_float convert_float order2 depth pos n a l' d).
Proof.
  intros depth pos n a l l' d H. unfold section_field. apply interface_same. intro d'. assert (S := styled_same pos false a _ _ (stsame_refl (no_styles F))).
  destruct (decode_styled _ _ _ order1 _ _ _ _), (decode_styled _ _ _ order2 _ _ _ _); try contradiction; [|reflexivity]. apply instructions_same; [apply instruction_same|exact H].
Qed.
Lemma field_same : forall depth pos n a x y, dsame x y ->
  fsame dsame (document_field F parse_float convert_float order1 depth pos n a x) (document_field F parse_float convert_float order2 depth pos n a y).
Proof.
  intros depth pos n a [m p s h f b] [m' p' s' h' f' b'] (E1 & E2 & E3 & Hh & Hf & Hb). cbn in E1, E2, E3, Hh, Hf, Hb. subst m' p' s'. unfold document_field.
  destruct (beqb n _). { intro d. apply (map_same eq); [apply rsame_eq; reflexivity|]. intros ? ? <-. repeat split; assumption. }
  destruct (beqb n _). { intro d. apply (map_same eq); [apply rsame_eq; reflexivity|]. intros ? ? <-. repeat split; assumption. }
  destruct (beqb n _). { intro d. apply (map_same eq); [apply rsame_eq; reflexivity|]. intros ? ? <-. repeat split; assumption. }
  destruct (beqb n _). { intro d. apply (map_same als); [apply section_same, Hh|]. intros. repeat split; assumption. }
  destruct (beqb n _). { intro d. apply (map_same als); [apply section_same, Hf|]. intros. repeat split; assumption. }
  destruct (beqb n _). { intro d. apply (map_same als); [apply section_same, Hb|]. intros. repeat split; assumption. }
  exact I.
Qed.
Lemma document_same : forall toks, rsame dsame (decode_document F parse_float convert_float order1 toks) (decode_document F parse_float convert_float order2 toks).
Proof.
  intro toks. unfold decode_document. destruct (find_start _ _) as [n d|d|]; [|reflexivity|exact I]. destruct (beqb n _); [|reflexivity].
  unfold struct. apply fields_same; [intros; apply field_same; assumption|auto|]. repeat split; constructor.
Qed.
Lemma load_same : forall toks,
  match load F parse_float convert_float order1 sheet1 toks, load F parse_float convert_float order2 sheet2 toks with
  | LOk _ doc1 cs1, LOk _ doc2 cs2 => dsame doc1 doc2 /\ assoc clsame cs1 cs2
  | LErr _, LErr _ | LPanic _, LPanic _ | LFuel _, LFuel _ => True
  | _, _ => False
  end.
Proof.
  intro toks. unfold load. assert (D := document_same toks). destruct (decode_document _ _ _ order1 toks) as [x d|d|], (decode_document _ _ _ order2 toks) as [y d'|d'|]; try contradiction; try exact I.
  destruct D as [D _]. destruct D as (E1 & E2 & E3 & E4). rewrite E3.
  assert (C := classes_go_same sheet1 sheet2 Hs1 Hs2 (S (List.length (blank_controls (doc_style F y)))) (blank_controls (doc_style F y)) 0 [] [] (Forall2_nil _)).
  unfold decode_classes. destruct (decode_classes_go F _ _ sheet1 _ _ _ _), (decode_classes_go F _ _ sheet2 _ _ _ _); try contradiction; try exact I.
  split; [repeat split; tauto|exact C].
Qed.

(** ** Processing what was loaded *)
Variables (hyph : bytes -> list bytes) (resolve : bytes -> bytes) (image : bytes -> option (Z * Z)) (shuffle1 shuffle2 : boxes -> boxes).
Hypothesis Hsh1 : forall l, Permutation (shuffle1 l) l.
Hypothesis Hsh2 : forall l, Permutation (shuffle2 l) l.
Lemma load_process : forall toks (eng : Engine F) depth (e : est eng),
  match load F parse_float convert_float order1 sheet1 toks, load F parse_float convert_float order2 sheet2 toks with
  | LOk _ doc1 cs1, LOk _ doc2 cs2 =>
      process (loaded_env hyph resolve image shuffle1 doc1 cs1) depth e = process (loaded_env hyph resolve image shuffle2 doc2 cs2) depth e
  | LErr _, LErr _ => True
  | _, _ => False
  end.
Proof.
  intros toks eng depth e. assert (L := load_same toks).
  destruct (load_returns parse_float convert_float order1 sheet1 toks) as [R1 R2].
  destruct (load F _ _ order1 sheet1 toks) as [doc1 cs1| | |], (load F _ _ order2 sheet2 toks) as [doc2 cs2| | |]; try contradiction; try exact I; try congruence.
  destruct L as [(_ & _ & _ & Hh & Hf & Hb) Hc]. apply (process_same _ _ stsame); try assumption; try reflexivity.
  intros st1 st2 [Hm Hcl]. cbn [e_mut e_mut_sel loaded_env]. split; [intro s|intros sel s].
  - unfold mutated_styles. rewrite Hcl, (classes_mutate_same _ _ Hc). destruct (classes_mutate F cs2 _ s); [|reflexivity]. rewrite (mutate_all_same _ _ Hm). reflexivity.
  - unfold mutated_styles_sel. rewrite Hcl, (classes_mutate_sel_same _ _ _ Hc). destruct (classes_mutate_sel F sel cs2 _ s); [|reflexivity]. rewrite (mutate_all_same _ _ Hm). reflexivity.
Qed.
End Load.
