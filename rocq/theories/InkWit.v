(** A document for the examples of C97. *)
From Coq Require Import ZArith QArith.
From Verif Require Import GoStr GoStrFacts Num Style Class ClassView Instr Xml Load LoadSpec LoadDocSpec LoadWit InkSpec.
From Verif Require TextSpec.
Local Open Scope nat_scope.

(** Everything below, as a list. *)
Fixpoint nodes (t : node) : list node := t :: match t with Elem _ _ _ ks => flat_map nodes ks | _ => [] end.
Lemma below_nodes : forall ts t, below ts t -> In t (flat_map nodes ts).
Proof.
  intros ts t H. induction H as [ts t H|ts p n a ks t H _ IH]; apply in_flat_map; [exists t; split; [exact H|destruct t; left; reflexivity]|].
  exists (Elem p n a ks). split; [exact H|]. right. exact IH.
Qed.
Fixpoint occursb (w s : bytes) : bool := has_prefix w s || match s with [] => false | _ :: s' => occursb w s' end.
Lemma occursb_false : forall w s, occursb w s = false -> ~ TextSpec.occurs w s.
Proof.
  intros w s H (a & b & E). revert a E. induction s as [|c s IH]; intros a E; cbn in H; apply orb_false_elim in H as [H1 H2].
  - destruct a; [|discriminate E]. assert (T : has_prefix w [] = true) by (apply has_prefix_spec; exists b; exact E). congruence.
  - destruct a as [|x a]; [assert (T : has_prefix w (c :: s) = true) by (apply has_prefix_spec; exists b; exact E); congruence|].
    injection E as _ E. exact (IH H2 a E).
Qed.
Definition decodes (v : bytes) : bool := match decode_mutator NumQ sample_q sample_q (fun l => l) v with Some _ => true | None => false end.
Definition plain_node (t : node) : bool :=
  match t with
  | Chars t => negb (occursb ($"{cp}") t)
  | Elem _ n a ks => forallb decodes (values ($"style") a) && (if beqb n ($"p") then negb (occursb ($"{cp}") (chars_of ks)) else true) &&
      (if beqb n ($"table") then match values ($"repeatheader") a with [] => true | _ => false end else true) &&
      (if existsb (beqb n) [$"lf"; $"setx"; $"sety"] then match ks with [] => true | _ => false end else true)
  | Other => true
  end.
Lemma plain_check : forall ts, forallb plain_node (flat_map nodes ts) = true -> plain_section sample_q sample_q ts.
Proof.
  intros ts H. rewrite forallb_forall in H. assert (K : forall t, below ts t -> plain_node t = true) by (intros t Ht; apply H, below_nodes, Ht). clear H.
  constructor.
  - intros p n a ks v Hb Hv. apply K in Hb. cbn [plain_node] in Hb. do 3 apply andb_prop in Hb as [Hb _]. rewrite forallb_forall in Hb. apply Hb in Hv. unfold decodes in Hv.
    destruct (decode_mutator _ _ _ _ v) as [m|] eqn:E; [|discriminate]. exists m, (fun l => l). split; [intro l; apply Permutation.Permutation_refl|exact E].
  - intros t Hb. apply K in Hb. cbn [plain_node] in Hb. apply occursb_false. destruct (occursb _ t); [discriminate|reflexivity].
  - intros p a ks Hb. apply K in Hb. cbn [plain_node] in Hb. do 2 apply andb_prop in Hb as [Hb _]. apply andb_prop in Hb as [_ Hb]. rewrite beqb_refl in Hb. apply occursb_false. destruct (occursb _ _); [discriminate|reflexivity].
  - intros p a ks Hb. apply K in Hb. cbn [plain_node] in Hb. apply andb_prop in Hb as [Hb _]. apply andb_prop in Hb as [_ Hb]. rewrite beqb_refl in Hb. destruct (values _ a); [reflexivity|discriminate].
  - intros p n a ks Hb Hn. apply K in Hb. cbn [plain_node] in Hb. apply andb_prop in Hb as [_ Hb].
    assert (E : existsb (beqb n) [$"lf"; $"setx"; $"sety"] = true) by (apply existsb_exists; exists n; split; [exact Hn|apply beqb_refl]). rewrite E in Hb. destruct ks; [reflexivity|discriminate].
Qed.
Definition unblocked_node (t : node) : bool := match t with Elem _ _ a _ => forallb (fun v => negb (occursb ($"block") v)) (values ($"style") a) | _ => true end.
Lemma unjustified_check : forall s kids, occursb ($"block") (text_field ($"style") kids) = false -> forallb unblocked_node (flat_map nodes (under s kids)) = true -> unjustified s kids.
Proof.
  intros s kids H1 H2. split; [exact (occursb_false _ _ H1)|]. intros p n a ks v Hb Hv. apply below_nodes in Hb. rewrite forallb_forall in H2. apply H2 in Hb. cbn [unblocked_node] in Hb.
  rewrite forallb_forall in Hb. apply Hb in Hv. apply occursb_false. destruct (occursb _ v); [discriminate|reflexivity].
Qed.

(** A header, a text, a box and a table with unknown tags and a box in a cell. *)
Definition ink_kids (align : String.string) : list node :=
  [el "style" [] [ch "c{h-align:right} c:first-cell{h-align:center}"];
   el "header" [] [el "text" [] [ch "top"]];
   el "body" [] [el "text" [("style", align)] [ch "one two"; el "br" [] []; el "p" [("class", "c")] [ch " three
  four"]]; ch "lost"; el "box" [] [ch "five"];
     el "table" [] [el "tr" [("class", "c")] [el "td" [] [ch "a "; el "b" [] [el "i" [] [ch "b"]]; el "box" [] [ch "d"]; ch "c"]; el "td" [] [el "text" [] [ch "gone"]; ch "e"]]]]]%string.
