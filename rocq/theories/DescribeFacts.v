(** Facts about descriptions. *)
From Coq Require Import ZArith Lia Permutation.
From Verif Require Import GoStr GoStrFacts GoFmt Utf8 Utf8Facts Num Style Class Instr Load Describe DescribeSpec.
Local Open Scope nat_scope.

Lemma jval_ind' {F : Num} (P : jval F -> Prop) (HS : forall s, P (JStr s)) (HN : forall x, P (JNum x))
  (HO : forall l, Forall (fun kv => P (snd kv)) l -> P (JObj l)) : forall j, P j.
Proof.
  fix IH 1. intros [s|x|l]; [apply HS|apply HN|]. apply HO. induction l as [|[k v] l IHl]; constructor; [apply IH|exact IHl].
Qed.

Section Diff.
Context {F : Num}.
Variable finite : F -> bool.
Local Notation jval := (jval F).

(** The differences in canonical order. *)
Fixpoint lv (path : bytes) (org new : jval) {struct org} : option (list (diff F)) :=
  match org with
  | JObj l =>
      (fix go (l : list (bytes * jval)) : option (list (diff F)) :=
         match l with
         | [] => Some []
         | (k, v) :: l' =>
             match new with
             | JObj m =>
                 match lookup F k m with
                 | Some v' => match lv (path ++ $":" ++ k) v v', go l' with Some a, Some b => Some (a ++ b) | _, _ => None end
                 | None => None
                 end
             | _ => None
             end
         end) l
  | _ => Some (if jeq F org new then [] else [mkDiff path (Some org) new])
  end.
Definition got (r : dres F) : list (diff F) := match r with DOk ds => ds | DErr _ => [] end.
Lemma gather_ok : forall rounds, Forall (fun kr => exists ds, snd kr = DOk ds) rounds -> gather F rounds = DOk (flat_map (fun kr => got (snd kr)) rounds).
Proof.
  induction rounds as [|[k r] l IH]; intro H; [reflexivity|]. apply Forall_cons_iff in H as [[ds E] H]. cbn in E. subst r. cbn. rewrite IH by exact H. reflexivity.
Qed.
Lemma lv_diff : forall (order : bytes -> list (bytes * dres F) -> list (bytes * dres F)), (forall p l, Permutation (order p l) l) ->
  forall org path new ds, lv path org new = Some ds -> exists ds', idiff F order path org new = DOk ds' /\ Permutation ds' ds.
Proof.
  intros order Ho org. induction org as [s|x|l IH] using jval_ind'; intros path new ds H.
  1,2: cbn in H |- *; injection H as <-; destruct new; eexists; (split; [|apply Permutation_refl]); match goal with |- context [if ?b then _ else _] => destruct b; reflexivity | _ => reflexivity end.
  cbn [idiff]. match goal with |- context [map ?f l] => set (g := f) end.
  assert (G : Forall (fun kr => exists ds, snd kr = DOk ds) (map g l) /\ Permutation (flat_map (fun kr => got (snd kr)) (map g l)) ds).
  { cbn [lv] in H. revert ds H. induction l as [|[k v] l IHl]; intros ds H; [injection H as <-; split; constructor|].
    apply Forall_cons_iff in IH as [IHv IH]. cbn [snd] in IHv. destruct new as [s|x|m]; try discriminate.
    destruct (lookup F k m) as [v'|] eqn:L; [|discriminate]. destruct (lv (path ++ $":" ++ k) v v') as [a|] eqn:A; [|discriminate].
    match type of H with match ?x with _ => _ end = _ => destruct x as [b|] eqn:B; [|discriminate] end. injection H as <-.
    destruct (IHv _ _ _ A) as (ds' & E & P). destruct (IHl IH b eq_refl) as [H1 H2].
    assert (Eg : g (k, v) = (k, DOk ds')) by (unfold g; rewrite L, E; reflexivity).
    cbn [map flat_map]. rewrite Eg. cbn [snd got]. split; [constructor; [exists ds'; reflexivity|exact H1]|]. apply Permutation_app; assumption. }
  destruct G as [H1 H2]. exists (flat_map (fun kr => got (snd kr)) (order path (map g l))). split.
  - apply gather_ok. rewrite Forall_forall in *. intros kr Hin. apply H1. eapply Permutation_in; [apply Ho|exact Hin].
  - rewrite <- H2. apply Permutation_flat_map, Ho.
Qed.

Definition line (org new : Styles F) (f : bytes * (Styles F -> gval F)) : list (diff F) :=
  let a := show (snd f org) in let b := show (snd f new) in if jeq F a b then [] else [mkDiff (fst f) (Some a) b].
Definition js (s : bytes) : jval := JStr (encode (decode s)).
Definition jz (z : Z) : jval := JNum (of_Z z).
Definition quad_obj {A} (v : A -> jval) (q : Quad A) : jval := JObj [($"Left", v (QLeft q)); ($"Top", v (QTop q)); ($"Right", v (QRight q)); ($"Bottom", v (QBottom q))].
Definition rgb_obj (c : RGB) : jval := JObj [($"R", jz (R c)); ($"G", jz (G c)); ($"B", jz (B c))].
Definition obj (s : Styles F) : list (bytes * jval) :=
  [($"Family", js (Family (SFont s))); ($"PointSize", JNum (PointSize (SFont s))); ($"Style", js (FStyle (SFont s)));
   ($"Weight", js (Weight (SFont s))); ($"Decoration", js (Decoration (SFont s)));
   ($"Border", quad_obj jz (Border (SBox s))); ($"Padding", quad_obj JNum (Padding (SBox s))); ($"Margin", quad_obj JNum (Margin (SBox s)));
   ($"Width", JNum (Width (SDim s))); ($"Height", JNum (Height (SDim s))); ($"LineSpacing", JNum (LineSpacing (SDim s)));
   ($"OffsetX", JNum (OffsetX (SDim s))); ($"OffsetY", JNum (OffsetY (SDim s))); ($"ColumnWidth", JNum (ColumnWidth s));
   ($"HAlign", js (HAlign (SAlign s))); ($"VAlign", js (VAlign (SAlign s)));
   ($"Foreground", rgb_obj (Foreground (SColor s))); ($"Text", rgb_obj (TextColor (SColor s))); ($"Background", rgb_obj (Background (SColor s)));
   ($"LineWidth", JNum (LineWidth s))].
Lemma finite_map : forall s, finite_styles finite s -> to_map F finite s = JObj (obj s).
Proof.
  intros s H.
  assert (Hb : forallb (fun f => match snd f s with VFloat x => finite x | _ => true end) fields = true).
  { apply forallb_forall. intros [p get] Hin. cbn [snd]. destruct (get s) eqn:E; try reflexivity. eapply H; eassumption. }
  clear H. destruct s as [[fa ps fs fw fd] [[b1 b2 b3 b4] [p1 p2 p3 p4] [m1 m2 m3 m4]] [w h ls ox oy] cw [ha va] [[f1 f2 f3] [t1 t2 t3] [g1 g2 g3]] lw].
  cbn [fields quad_fields rgb_fields app forallb snd SFont SBox SDim SAlign SColor ColumnWidth LineWidth Family PointSize FStyle Weight Decoration Border Padding Margin Width Height LineSpacing OffsetX OffsetY HAlign VAlign Foreground TextColor Background R G B QLeft QTop QRight QBottom andb] in Hb.
  repeat match type of Hb with _ && _ = true => apply andb_prop in Hb; let E := fresh in destruct Hb as [E Hb] end.
  unfold to_map.
  cbn [to_json json_type styles_val jfields map quad_val rgb_val SFont SBox SDim SAlign SColor ColumnWidth LineWidth Family PointSize FStyle Weight Decoration Border Padding Margin Width Height LineSpacing OffsetX OffsetY HAlign VAlign Foreground TextColor Background R G B QLeft QTop QRight QBottom].
  repeat match goal with E : finite _ = true |- _ => rewrite E; clear E end.
  cbv [option_map app obj js jz quad_obj rgb_obj SFont SBox SDim SAlign SColor ColumnWidth LineWidth Family PointSize FStyle Weight Decoration Border Padding Margin Width Height LineSpacing OffsetX OffsetY HAlign VAlign Foreground TextColor Background R G B QLeft QTop QRight QBottom]. reflexivity.
Qed.

Ltac keys := repeat match goal with |- context [beqb ($ ?x) ($ ?y)] => let b := eval vm_compute in (beqb ($ x) ($ y)) in change (beqb ($ x) ($ y)) with b end; cbv iota.
Lemma lv_quad : forall {A} (v : A -> jval) (g : A -> gval F) p (q : Styles F -> Quad A) s s',
  (forall x, v x = show (g x)) -> (forall x l, v x <> JObj l) ->
  lv ($"styles" ++ $":" ++ $ p) (quad_obj v (q s)) (quad_obj v (q s')) = Some (flat_map (line s s') (quad_fields p g q)).
Proof.
  intros A v g p q s s' E N. unfold quad_obj. destruct (q s) as [a b c d] eqn:Q, (q s') as [a' b' c' d'] eqn:Q'. cbn [QLeft QTop QRight QBottom].
  assert (L : forall x y p, lv p (v x) (v y) = Some (if jeq F (show (g x)) (show (g y)) then [] else [mkDiff p (Some (show (g x))) (show (g y))])).
  { intros x y p0. rewrite <- !E. specialize (N x). destruct (v x); [reflexivity..|]. exfalso. eapply N. reflexivity. }
  cbn [lv lookup]. keys. rewrite !L. unfold quad_fields, line. cbn [flat_map fst snd]. rewrite Q, Q'. cbn [QLeft QTop QRight QBottom].
  rewrite <- !app_assoc. reflexivity.
Qed.
Lemma lv_rgb : forall p (q : Styles F -> RGB) s s',
  lv ($"styles" ++ $":" ++ $ p) (rgb_obj (q s)) (rgb_obj (q s')) = Some (flat_map (line s s') (rgb_fields p q)).
Proof.
  intros p q s s'. unfold rgb_obj. destruct (q s) as [a b c] eqn:Q, (q s') as [a' b' c'] eqn:Q'. cbn [R G B].
  cbn [lv lookup]. keys. unfold rgb_fields, line. cbn [flat_map fst snd]. rewrite Q, Q'. cbn [R G B show jz].
  rewrite <- !app_assoc. reflexivity.
Qed.
Lemma lv_obj : forall s s', lv ($"styles") (JObj (obj s)) (JObj (obj s')) = Some (flat_map (line s s') fields).
Proof.
  intros s s'. unfold obj. cbn [lv lookup]. keys.
  assert (NZ : forall x l, jz x <> JObj l) by discriminate. assert (NN : forall (x : F) l, JNum x <> JObj l) by discriminate.
  rewrite (lv_quad jz VInt "Border" (fun s => Border (SBox s)) s s') by (reflexivity || exact NZ).
  rewrite (lv_quad JNum VFloat "Padding" (fun s => Padding (SBox s)) s s') by (reflexivity || exact NN).
  rewrite (lv_quad JNum VFloat "Margin" (fun s => Margin (SBox s)) s s') by (reflexivity || exact NN).
  rewrite (lv_rgb "Foreground" (fun s => Foreground (SColor s)) s s'), (lv_rgb "Text" (fun s => TextColor (SColor s)) s s'), (lv_rgb "Background" (fun s => Background (SColor s)) s s').
  unfold fields. rewrite !flat_map_app. unfold line at 1 5 9. cbn [flat_map fst snd show lv js]. rewrite <- ?app_assoc. cbn [app]. rewrite ?app_nil_r. reflexivity.
Qed.
End Diff.
