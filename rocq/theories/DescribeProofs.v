(** Descriptions, for binary64. *)
From Coq Require Import ZArith Permutation Floats.SpecFloat.
From Verif Require Import GoStr GoStrFacts Num Style Class Instr Load Describe DescribeSpec DescribeFacts DescribeThms F64Facts.
Local Open Scope nat_scope.

Lemma describe_mirrors : forall mutated order doc, (forall tp p l, Permutation (order tp p l) l) ->
  let items := describe NumF64 f64_finite mutated order doc in
  map it_name items = [$"meta"; $"page"; $"header"; $"footer"; $"body"] /\
  Forall2 (mirrors f64_finite mutated) (filter shown (doc_header NumF64 doc)) (sub_items ($"header") items) /\
  Forall2 (mirrors f64_finite mutated) (filter shown (doc_footer NumF64 doc)) (sub_items ($"footer") items) /\
  Forall2 (mirrors f64_finite mutated) (filter shown (doc_body NumF64 doc)) (sub_items ($"body") items) /\
  entry_value ($"author") (sub_items ($"meta") items) = Some (StrValue (m_author (doc_meta NumF64 doc))) /\
  entry_value ($"creator") (sub_items ($"meta") items) = Some (StrValue (m_creator (doc_meta NumF64 doc))) /\
  entry_value ($"subject") (sub_items ($"meta") items) = Some (StrValue (m_subject (doc_meta NumF64 doc))) /\
  entry_value ($"orientation") (sub_items ($"page") items) = Some (StrValue (p_orientation NumF64 (doc_page NumF64 doc))) /\
  entry_value ($"format") (sub_items ($"page") items) = Some (StrValue (p_format NumF64 (doc_page NumF64 doc))).
Proof.
  intros mutated order doc Ho items. split; [reflexivity|].
  split; [exact (instructions_mirror f64_finite mutated order Ho eq_refl eq_refl f64_not_zero (doc_header NumF64 doc) [2])|].
  split; [exact (instructions_mirror f64_finite mutated order Ho eq_refl eq_refl f64_not_zero (doc_footer NumF64 doc) [3])|].
  split; [exact (instructions_mirror f64_finite mutated order Ho eq_refl eq_refl f64_not_zero (doc_body NumF64 doc) [4])|].
  repeat split.
Qed.
Lemma margins_described : forall (F : Num) finite mutated order (doc : Document F),
  let items := describe F finite mutated order doc in let m := p_margins F (doc_page F doc) in
  margin_entry ($"top") items = Some (NumValue (QTop m)) /\ margin_entry ($"right") items = Some (NumValue (QRight m)) /\
  margin_entry ($"bottom") items = Some (NumValue (QBottom m)) /\
  (margin_entry ($"left") items = Some (NumValue (QLeft m)) <-> QLeft m = QRight m).
Proof.
  intros F finite mutated order doc items m. repeat (split; [reflexivity|]). change (margin_entry ($"left") items) with (Some (NumValue (QRight m))).
  split; [intro H; injection H as H; auto|intros ->; reflexivity].
Qed.
Lemma changes_listed : forall order tp s, (forall tp p l, Permutation (order tp p l) l) -> finite_styles f64_finite s ->
  lists_changes s (describe_styles NumF64 f64_finite order tp s).
Proof. intros order tp s Ho. exact (describe_styles_changes f64_finite order Ho eq_refl eq_refl f64_not_zero tp s). Qed.
Lemma not_finite_listed : forall order tp s p get x, (forall tp p l, Permutation (order tp p l) l) ->
  In (p, get) fields -> get s = VFloat x -> f64_finite x = false ->
  exists k, describe_styles NumF64 f64_finite order tp s =
    [mkDiff ($"ERROR") None (JStr ($"styles (MSI): key " ++ k ++ $" does not exist in modified MSI"))].
Proof. intros order tp s p get x Ho. exact (describe_styles_error f64_finite order Ho eq_refl tp s p get x). Qed.
Definition infinite : Styles NumF64 :=
  mkStyles (mkFont [] zero [] [] []) (mkBox (mkQuad 0 0 0 0)%Z (zero_quad NumF64) (zero_quad NumF64)) (mkDim (S754_infinity false : NumF64) zero zero zero zero) zero
    (mkAlign [] []) (mkColor (mkRGB 0 0 0) (mkRGB 0 0 0) (mkRGB 0 0 0))%Z zero.
Lemma infinite_shown : forall order : list nat -> bytes -> list (bytes * dres NumF64) -> list (bytes * dres NumF64),
  describe_styles NumF64 f64_finite order [] infinite =
  match idiff NumF64 (order []) ($"styles") (JObj (obj (zero_styles NumF64))) (JObj []) with
  | DOk ds => ds | DErr e => [mkDiff ($"ERROR") None (JStr e)] end.
Proof.
  intro order. unfold describe_styles, styles_diff.
  rewrite (finite_map f64_finite (zero_styles NumF64)) by (apply zero_finite; reflexivity).
  rewrite (infinite_map f64_finite infinite ($"styles:Width") (fun s => VFloat (Width (SDim s))) (S754_infinity false : NumF64)); [reflexivity| |reflexivity|reflexivity].
  unfold fields. rewrite !in_app_iff. right. right. right. right. left. left. reflexivity.
Qed.
Lemma infinite_first : describe_styles NumF64 f64_finite (fun _ _ l => l) [] infinite =
  [mkDiff ($"ERROR") None (JStr ($"styles (MSI): key Family does not exist in modified MSI"))].
Proof. rewrite infinite_shown. reflexivity. Qed.
Lemma infinite_last : describe_styles NumF64 f64_finite (fun _ _ l => rev l) [] infinite =
  [mkDiff ($"ERROR") None (JStr ($"styles (MSI): key LineWidth does not exist in modified MSI"))].
Proof. rewrite infinite_shown. reflexivity. Qed.
Lemma infinite_width : exists s, ~ lists_changes s (describe_styles NumF64 f64_finite (fun _ _ l => l) [] s) /\
  describe_styles NumF64 f64_finite (fun _ _ l => l) [] s <> describe_styles NumF64 f64_finite (fun _ _ l => rev l) [] s.
Proof.
  exists infinite. rewrite infinite_first, infinite_last. split.
  - intros [_ H]. destruct (proj1 (H _) (or_introl eq_refl)) as (get & _ & _ & X & _). cbn [d_org] in X. discriminate X.
  - intro E. assert (X : $"styles (MSI): key Family does not exist in modified MSI" = $"styles (MSI): key LineWidth does not exist in modified MSI").
    { apply (f_equal (fun l => match l with [d] => match d_mod d with JStr s => s | _ => [] end | _ => [] end)) in E. exact E. }
    vm_compute in X. discriminate X.
Qed.
