(** Descriptions: the theorems. *)
From Coq Require Import ZArith Lia Permutation.
From Verif Require Import GoStr GoStrFacts GoFmt Utf8 Utf8Facts Num Style Class Instr Load Describe DescribeSpec DescribeFacts.
Local Open Scope nat_scope.

Section Thms.
Context {F : Num}.
Variable finite : F -> bool.
Local Notation jval := (jval F).
Local Notation fields := (@fields F).

Fixpoint distinct (l : list bytes) : bool :=
  match l with [] => true | x :: l' => negb (existsb (beqb x) l') && distinct l' end.
Lemma distinct_nodup : forall l, distinct l = true -> NoDup l.
Proof.
  induction l as [|x l IH]; intro H; [constructor|]. cbn in H. apply andb_prop in H as [H1 H2]. constructor; [|auto].
  intro Hin. apply negb_true_iff in H1. assert (E : existsb (beqb x) l = true) by (apply existsb_exists; exists x; split; [exact Hin|apply beqb_refl]). congruence.
Qed.
Lemma fields_nodup : NoDup (map fst fields).
Proof. apply distinct_nodup. vm_compute. reflexivity. Qed.
Lemma line_path : forall (s s' : Styles F) f d, In d (line s s' f) -> d_path d = fst f.
Proof. intros s s' f d. unfold line. destruct (jeq F _ _); [intros []|intros [<-|[]]; reflexivity]. Qed.
Lemma lines_path : forall (s s' : Styles F) l p, In p (map d_path (flat_map (line s s') l)) -> In p (map fst l).
Proof.
  intros s s' l p H. apply in_map_iff in H as (d & <- & H). apply in_flat_map in H as (f & Hf & H). rewrite (line_path _ _ _ _ H). apply in_map. exact Hf.
Qed.
Lemma lines_nodup : forall (s s' : Styles F) l, NoDup (map fst l) -> NoDup (map d_path (flat_map (line s s') l)).
Proof.
  induction l as [|f l IH]; intro H; [constructor|]. cbn [map] in H. apply NoDup_cons_iff in H as [H1 H2]. cbn [flat_map]. rewrite map_app.
  unfold line at 1. destruct (jeq F _ _); [apply IH; exact H2|]. cbn [map app d_path]. constructor; [|apply IH; exact H2]. intro Hin. apply H1. eapply lines_path. exact Hin.
Qed.
(** The fields of two styles have the same kinds. *)
Lemma fields_kind : forall s s' p get, In (p, get) fields ->
  match get s, get s' with VStr _, VStr _ => get (zero_styles F) = VStr [] | VFloat _, VFloat _ => get (zero_styles F) = VFloat zero
  | VInt _, VInt _ => get (zero_styles F) = VInt 0%Z | _, _ => False end.
Proof.
  intros s s'. assert (H : Forall (fun f => match snd f s, snd f s' with VStr _, VStr _ => snd f (zero_styles F) = VStr [] | VFloat _, VFloat _ => snd f (zero_styles F) = VFloat zero
    | VInt _, VInt _ => snd f (zero_styles F) = VInt 0%Z | _, _ => False end) fields) by (repeat (constructor; [reflexivity|]); constructor).
  intros p get Hin. rewrite Forall_forall in H. exact (H _ Hin).
Qed.
Lemma jeq_differ : forall a b : jval, (jeq F a b = false <-> differ a b).
Proof.
  intros [s|x|l] [t|y|m]; cbn; try tauto. destruct (beqb_spec s t); split; congruence.
Qed.
Lemma line_in : forall s s' d, In d (flat_map (line s s') fields) <->
  exists get, In (d_path d, get) fields /\ differ (show (get s)) (show (get s')) /\ d_org d = Some (show (get s)) /\ d_mod d = show (get s').
Proof.
  intros s s' d. rewrite in_flat_map. split.
  - intros ([p get] & Hin & H). unfold line in H. cbn [fst snd] in H. destruct (jeq F (show (get s)) (show (get s'))) eqn:E; [contradiction|]. destruct H as [<-|[]].
    exists get. cbn. split; [exact Hin|]. split; [apply jeq_differ; exact E|split; reflexivity].
  - intros (get & Hin & D & E1 & E2). exists (d_path d, get). split; [exact Hin|]. unfold line. cbn [fst snd]. apply jeq_differ in D. rewrite D. left.
    destruct d as [p o m]. cbn in *. subst. reflexivity.
Qed.

Section Order.
Variable order : bytes -> list (bytes * dres F) -> list (bytes * dres F).
Hypothesis Ho : forall p l, Permutation (order p l) l.
Theorem styles_diff_lists : forall org new, finite_styles finite org -> finite_styles finite new ->
  exists ds, styles_diff F finite order org new = DOk ds /\ lists_differences org new ds.
Proof.
  intros org new H1 H2. unfold styles_diff. rewrite !finite_map by assumption.
  destruct (lv_diff order Ho _ _ _ _ (lv_obj org new)) as (ds & E & P). exists ds. split; [exact E|]. split.
  - eapply Permutation_NoDup; [apply Permutation_map, Permutation_sym; exact P|]. apply lines_nodup, fields_nodup.
  - intro d. rewrite <- line_in. split; apply Permutation_in; [exact P|apply Permutation_sym; exact P].
Qed.
Lemma encode_decode_nil : forall s, encode (decode s) = [] <-> s = [].
Proof.
  intros [|c s]; [split; reflexivity|]. split; [|discriminate]. unfold decode. cbn [decode_go]. destruct (decode_first c s) as [r k]. unfold encode. cbn [flat_map].
  intro H. apply app_eq_nil in H as [H _]. unfold encode_rune in H. destruct (_ <? _)%N; [discriminate|]. destruct (_ <? _)%N; [discriminate|]. destruct (_ <? _)%N; discriminate.
Qed.
Lemma differences_changes : forall new ds, eqb (n := F) zero zero = true -> (forall z, z <> 0%Z -> eqb (n := F) zero (of_Z z) = false) ->
  lists_differences (zero_styles F) new ds -> lists_changes new ds.
Proof.
  intros new ds Hz Hi [H1 H2]. split; [exact H1|]. intro d. rewrite H2. clear H1 H2.
  assert (D : forall p get, In (p, get) fields -> (differ (show (get (zero_styles F))) (show (get new)) <-> not_zero (get new))).
  { intros p get Hin. pose proof (fields_kind new new p get Hin) as K. destruct (get new) as [s|x|z|l]; [rewrite K..|contradiction]; cbn [show differ not_zero].
    - pose proof (encode_decode_nil s) as E. change (encode (decode [])) with (@nil ascii). split; intros H C; apply H.
      + symmetry. apply E. exact C.
      + apply E. symmetry. exact C.
    - reflexivity.
    - change (of_Z 0) with (zero (N := F)). split; [intros H ->; change (of_Z 0) with (zero (N := F)) in H; congruence|apply Hi]. }
  split; intros (get & Hin & X & Y); exists get; (split; [exact Hin|]); (split; [|exact Y]); eapply D; eauto.
Qed.
Lemma infinite_map : forall s p get x, In (p, get) fields -> get s = VFloat x -> finite x = false -> to_map F finite s = JObj [].
Proof.
  intros s p get x Hin Hg Hx.
  assert (Hb : forallb (fun f => match snd f s with VFloat x => finite x | _ => true end) fields = false).
  { destruct (forallb _ _) eqn:E; [|reflexivity]. rewrite forallb_forall in E. specialize (E _ Hin). cbn [snd] in E. rewrite Hg in E. congruence. }
  clear Hin Hg Hx p get x. destruct s as [[fa ps fs fw fd] [[b1 b2 b3 b4] [p1 p2 p3 p4] [m1 m2 m3 m4]] [w h ls ox oy] cw [ha va] [[f1 f2 f3] [t1 t2 t3] [g1 g2 g3]] lw].
  cbn [DescribeSpec.fields quad_fields rgb_fields app forallb snd SFont SBox SDim SAlign SColor ColumnWidth LineWidth Family PointSize FStyle Weight Decoration Border Padding Margin Width Height LineSpacing OffsetX OffsetY HAlign VAlign Foreground TextColor Background R G B QLeft QTop QRight QBottom andb] in Hb.
  unfold to_map.
  cbn [to_json json_type styles_val jfields map quad_val rgb_val SFont SBox SDim SAlign SColor ColumnWidth LineWidth Family PointSize FStyle Weight Decoration Border Padding Margin Width Height LineSpacing OffsetX OffsetY HAlign VAlign Foreground TextColor Background R G B QLeft QTop QRight QBottom].
  destruct (finite ps); [|reflexivity]. cbv [option_map app].
  destruct (finite p1); [|reflexivity]. destruct (finite p2); [|reflexivity]. destruct (finite p3); [|reflexivity]. destruct (finite p4); [|reflexivity].
  destruct (finite m1); [|reflexivity]. destruct (finite m2); [|reflexivity]. destruct (finite m3); [|reflexivity]. destruct (finite m4); [|reflexivity].
  destruct (finite w); [|reflexivity]. destruct (finite h); [|reflexivity]. destruct (finite ls); [|reflexivity]. destruct (finite ox); [|reflexivity].
  destruct (finite oy); [|reflexivity]. destruct (finite cw); [|reflexivity]. destruct (finite lw); [discriminate|reflexivity].
Qed.
Theorem styles_diff_error : forall org new p get x, finite_styles finite org -> In (p, get) fields -> get new = VFloat x -> finite x = false ->
  exists k, styles_diff F finite order org new = DErr ($"styles (MSI): key " ++ k ++ $" does not exist in modified MSI").
Proof.
  intros org new p get x H1 Hin Hg Hx. unfold styles_diff. rewrite (finite_map finite org H1), (infinite_map _ _ _ _ Hin Hg Hx). cbn [idiff].
  match goal with |- context [order ($"styles") ?l] => pose proof (Ho ($"styles") l) as P; assert (A : Forall (fun kr => exists k, snd kr = DErr ($"styles (MSI): key " ++ k ++ $" does not exist in modified MSI")) l) end.
  { apply Forall_forall. intros kr Hk. apply in_map_iff in Hk as ([k v] & <- & _). exists k. reflexivity. }
  destruct (order _ _) as [|[k r] l].
  - apply Permutation_nil in P. discriminate P.
  - rewrite Forall_forall in A. destruct (A (k, r)) as [k' E]; [eapply Permutation_in; [exact P|left; reflexivity]|]. cbn in E. subst r. exists k'. reflexivity.
Qed.
End Order.

Variable mutated : Styled F -> Styles F -> Styles F.
Variable order : list nat -> bytes -> list (bytes * dres F) -> list (bytes * dres F).
Hypothesis Ho : forall tp p l, Permutation (order tp p l) l.
Hypothesis Hfinite : finite zero = true.
Hypothesis Hzero : eqb (n := F) zero zero = true.
Hypothesis Hints : forall z, z <> 0%Z -> eqb (n := F) zero (of_Z z) = false.
Local Notation describe_instr := (describe_instr F finite mutated order).
Local Notation describe_table := (describe_table F finite mutated order).
Local Notation describe_row := (describe_row F finite mutated order).
Local Notation describe_cell := (describe_cell F finite mutated order).
Local Notation describe_part := (describe_part F finite mutated order).
Local Notation describe_instructions := (describe_instructions F finite mutated order).
Local Notation mirrors := (mirrors finite mutated).

Lemma zero_finite : finite_styles finite (zero_styles F).
Proof.
  intros p get x Hin Hg. pose proof (fields_kind (zero_styles F) (zero_styles F) p get Hin) as K. rewrite Hg in K. injection K as ->. exact Hfinite.
Qed.
Theorem describe_styles_changes : forall tp s, finite_styles finite s -> lists_changes s (describe_styles F finite order tp s).
Proof.
  intros tp s H. destruct (styles_diff_lists (order tp) (Ho tp) _ _ zero_finite H) as (ds & E & L).
  unfold describe_styles. rewrite E. apply differences_changes; assumption.
Qed.
Theorem describe_styles_error : forall tp s p get x, In (p, get) fields -> get s = VFloat x -> finite x = false ->
  exists k, describe_styles F finite order tp s = [mkDiff ($"ERROR") None (JStr ($"styles (MSI): key " ++ k ++ $" does not exist in modified MSI"))].
Proof.
  intros tp s p get x Hin Hg Hx. destruct (styles_diff_error (order tp) (Ho tp) _ _ _ _ _ zero_finite Hin Hg Hx) as [k E].
  exists k. unfold describe_styles. rewrite E. reflexivity.
Qed.
Lemma no_changes : lists_changes (zero_styles F) [].
Proof.
  split; [constructor|]. intro d. split; [intros []|]. intros (get & Hin & N & _). pose proof (fields_kind (zero_styles F) (zero_styles F) _ get Hin) as K.
  destruct (get (zero_styles F)); [injection K as ->..|contradiction]; cbn in N; congruence.
Qed.

Definition describe_from (tp : list nat) : nat -> list (instr F) -> list (item F) :=
  fix all (k : nat) (iss : list (instr F)) {struct iss} : list (item F) :=
    match iss with [] => [] | i :: iss' => describe_instr (k :: tp) i ++ all (S k) iss' end.
Lemma describe_box : forall tp st iss, describe_instr tp (IBox st iss) = [mkItem ($"box") NoValue (describe_mutator F finite mutated order tp st) (describe_from tp 0 iss)].
Proof. reflexivity. Qed.
Lemma describe_text : forall tp st iss, describe_instr tp (IText st iss) = [mkItem ($"text") NoValue (describe_mutator F finite mutated order tp st) (describe_from tp 0 iss)].
Proof. reflexivity. Qed.
Lemma describe_cell_eq : forall tp st cs rs iss, describe_cell tp (XCell st cs rs iss) =
  [mkItem ($"table-cell colspan=" ++ itoa cs ++ $" rowspan=" ++ itoa rs) NoValue (describe_mutator F finite mutated order tp st) (describe_from tp 0 iss)].
Proof. reflexivity. Qed.
Lemma describe_part_eq : forall tp st a iss, describe_part tp (XGridPart st a iss) =
  [mkItem ($"grid-part") (StrValue a) (describe_mutator F finite mutated order tp st) (describe_from tp 0 iss)].
Proof. reflexivity. Qed.
Definition parts_from (tp : list nat) : nat -> list (xgridpart F) -> list (item F) :=
  fix go' (k : nat) (l : list (xgridpart F)) {struct l} : list (item F) :=
    match l with [] => [] | p :: l' => describe_part (k :: tp) p ++ go' (S k) l' end.
Definition grid_from (tp : list nat) (parts : list (xgridpart F)) : nat -> list (xgridrow F) -> list (item F) :=
  fix go (k : nat) (l : list (xgridrow F)) : list (item F) :=
    match l with
    | [] => parts_from tp k parts
    | r :: l' => mkItem ($"grid-row") (StrValue (str_join ($" ") (gr_areas r))) (describe_mutator F finite mutated order (k :: tp) (gr_styled r)) [] :: go (S k) l'
    end.
Definition rows_from (tp : list nat) : nat -> list (xrow F) -> list (item F) :=
  fix go (k : nat) (l : list (xrow F)) {struct l} : list (item F) :=
    match l with [] => [] | p :: l' => describe_row (k :: tp) p ++ go (S k) l' end.
Definition cells_from (tp : list nat) : nat -> list (xcell F) -> list (item F) :=
  fix go (k : nat) (l : list (xcell F)) {struct l} : list (item F) :=
    match l with [] => [] | p :: l' => describe_cell (k :: tp) p ++ go (S k) l' end.
Lemma describe_grid : forall tp st rows parts, describe_instr tp (IGrid st rows parts) = [mkItem ($"grid") NoValue (describe_mutator F finite mutated order tp st) (grid_from tp parts 0 rows)].
Proof. reflexivity. Qed.
Lemma describe_table_eq : forall tp st n rows, describe_table tp (XTable st n rows) = [mkItem ($"table") NoValue (describe_mutator F finite mutated order tp st) (rows_from tp 0 rows)].
Proof. reflexivity. Qed.
Lemma describe_row_eq : forall tp st cells, describe_row tp (XRow st cells) = [mkItem ($"table-row") NoValue (describe_mutator F finite mutated order tp st) (cells_from tp 0 cells)].
Proof. reflexivity. Qed.
Lemma describe_instructions_eq : forall tp iss, describe_instructions tp iss = describe_from tp 0 iss.
Proof. reflexivity. Qed.
Lemma instr_mirrors : forall (i : instr F) tp, Forall2 mirrors (filter shown [i]) (describe_instr tp i)
with table_mirrors : forall (t : xtable F) tp, Forall2 mirrors [ITable t] (describe_table tp t)
with row_mirrors : forall (r : xrow F) tp, Forall2 mirrors [ITableRow r] (describe_row tp r)
with cell_mirrors : forall (c : xcell F) tp, Forall2 mirrors [ITableCell c] (describe_cell tp c)
with part_mirrors : forall (p : xgridpart F) tp, Forall2 mirrors [IGridPart p] (describe_part tp p).
Proof.
  - assert (one : forall i it, mirrors i it -> Forall2 mirrors [i] [it]) by (intros; constructor; [assumption|constructor]).
    assert (cons : forall i l m m', Forall2 mirrors (filter shown [i]) m -> Forall2 mirrors (filter shown l) m' -> Forall2 mirrors (filter shown (i :: l)) (m ++ m')).
    { intros i l m m' H H'. change (i :: l) with ([i] ++ l). rewrite filter_app. apply Forall2_app; assumption. }
    intros [st|x|x|x|st iss|st iss|st src|t|st t| | |t|r|c|st rows parts|r|p] tp.
    all: try solve [apply one; constructor; [reflexivity|reflexivity|cbn [changed style_attrs it_diffs]; first [apply describe_styles_changes|intros _; apply no_changes]|constructor]].
    all: try solve [constructor].
    + rewrite describe_box. apply one. constructor; [reflexivity|reflexivity|apply describe_styles_changes|]. cbn [children it_items]. generalize 0 as k.
      induction iss as [|i iss IH]; intro k; [constructor|]. apply cons; [apply instr_mirrors|apply IH].
    + rewrite describe_text. apply one. constructor; [reflexivity|reflexivity|apply describe_styles_changes|]. cbn [children it_items]. generalize 0 as k.
      induction iss as [|i iss IH]; intro k; [constructor|]. apply cons; [apply instr_mirrors|apply IH].
    + apply table_mirrors.
    + rewrite describe_grid. apply one. constructor; [reflexivity|reflexivity|apply describe_styles_changes|]. cbn [children it_items]. generalize 0 as k.
      induction rows as [|r rows IH]; intro k.
      * cbn [map app]. revert k. induction parts as [|p parts IH]; intro k; [constructor|]. apply (Forall2_app (l1 := [IGridPart p])); [apply part_mirrors|apply IH].
      * cbn [map app]. constructor; [|apply IH]. destruct r as [st' ar]. constructor; [reflexivity|reflexivity|apply describe_styles_changes|constructor].
  - intros [st n rows] tp. rewrite describe_table_eq. constructor; [|constructor]. constructor; [reflexivity|reflexivity|apply describe_styles_changes|]. cbn [children it_items]. generalize 0 as k.
    induction rows as [|r rows IH]; intro k; [constructor|]. cbn [map]. apply (Forall2_app (l1 := [ITableRow r])); [apply row_mirrors|apply IH].
  - intros [st cells] tp. rewrite describe_row_eq. constructor; [|constructor]. constructor; [reflexivity|reflexivity|apply describe_styles_changes|]. cbn [children it_items]. generalize 0 as k.
    induction cells as [|r cells IH]; intro k; [constructor|]. cbn [map]. apply (Forall2_app (l1 := [ITableCell r])); [apply cell_mirrors|apply IH].
  - intros [st cs rs iss] tp. rewrite describe_cell_eq. constructor; [|constructor]. constructor; [reflexivity|reflexivity|apply describe_styles_changes|]. cbn [children it_items]. generalize 0 as k.
    induction iss as [|i iss IH]; intro k; [constructor|]. change (i :: iss) with ([i] ++ iss). rewrite filter_app. apply Forall2_app; [apply instr_mirrors|apply IH].
  - intros [st a iss] tp. rewrite describe_part_eq. constructor; [|constructor]. constructor; [reflexivity|reflexivity|apply describe_styles_changes|]. cbn [children it_items]. generalize 0 as k.
    induction iss as [|i iss IH]; intro k; [constructor|]. change (i :: iss) with ([i] ++ iss). rewrite filter_app. apply Forall2_app; [apply instr_mirrors|apply IH].
Qed.
Theorem instructions_mirror : forall iss tp, Forall2 mirrors (filter shown iss) (describe_instructions tp iss).
Proof.
  intros iss tp. rewrite describe_instructions_eq. generalize 0 as k. induction iss as [|i iss IH]; intro k; [constructor|].
  change (i :: iss) with ([i] ++ iss). rewrite filter_app. apply Forall2_app; [apply instr_mirrors|apply IH].
Qed.
End Thms.

(** ** Cleaned texts *)
Definition no_two (s : bytes) : Prop := forall a b, s <> a ++ sp :: sp :: b.
Lemma no_two_cons : forall c s, no_two s -> (c = sp -> forall t, s <> sp :: t) -> no_two (c :: s).
Proof.
  intros c s H Hc [|x a] b E; cbn in E; injection E as -> E; [apply (Hc eq_refl _ E)|apply (H _ _ E)].
Qed.
Lemma spaces_no_two : forall s, no_two (replace_go [sp; sp] [] 0 s).
Proof.
  apply (scan_ind [sp; sp]); [discriminate| |intros t IH|intros c s Hp IH].
  - intros a b E. destruct a; discriminate E.
  - rewrite replace_go_match by discriminate. exact IH.
  - rewrite replace_go_nomatch by exact Hp. apply no_two_cons; [exact IH|]. intros -> t E.
    destruct s as [|c' s]; [discriminate|]. destruct (Ascii.eqb_spec c' sp) as [->|N].
    + cbn in Hp. discriminate Hp.
    + rewrite replace_go_nomatch in E; [injection E as -> _; congruence|]. cbn [has_prefix]. destruct (Ascii.eqb_spec sp c') as [<-|]; [congruence|reflexivity].
Qed.
Lemma letters_app : forall a b, letters (a ++ b) = letters a ++ letters b. Proof. intros. apply filter_app. Qed.
Lemma spaces_letters : forall s, letters (replace_go [sp; sp] [] 0 s) = letters s.
Proof.
  apply (scan_ind [sp; sp]); [discriminate|reflexivity|intros t IH|intros c s Hp IH].
  - rewrite replace_go_match by discriminate. cbn [app]. rewrite IH. reflexivity.
  - rewrite replace_go_nomatch by exact Hp. cbn [letters filter]. fold (letters s). rewrite <- IH. reflexivity.
Qed.
Lemma newlines_gone : forall s, replace_go [lf] [] 0 s = filter (fun c => negb (Ascii.eqb c lf)) s.
Proof.
  apply (scan_ind [lf]); [discriminate|reflexivity|intros t IH|intros c s Hp IH].
  - rewrite replace_go_match by discriminate. cbn [app filter]. rewrite IH. reflexivity.
  - rewrite replace_go_nomatch by exact Hp. cbn [filter]. cbn [has_prefix] in Hp. rewrite andb_true_r in Hp. rewrite Ascii.eqb_sym, Hp. cbn [negb]. rewrite IH. reflexivity.
Qed.
Lemma in_spaces : forall s c, In c (replace_go [sp; sp] [] 0 s) -> In c s.
Proof.
  intros s c. refine (scan_ind [sp; sp] (fun s => In c (replace_go [sp; sp] [] 0 s) -> In c s) _ _ _ _ s); [discriminate|auto|intros t IH|clear s; intros d s Hp IH].
  - rewrite replace_go_match by discriminate. intro H. right. right. auto.
  - rewrite replace_go_nomatch by exact Hp. intros [->|H]; [left; reflexivity|right; auto].
Qed.
Lemma letters_spaces : forall s, Forall (fun c => is_sp c = true) s -> letters s = [].
Proof. induction 1 as [|c s H _ IH]; [reflexivity|]. cbn [letters filter]. unfold is_sp in H. rewrite H, orb_true_r. exact IH. Qed.
Theorem clear_str_clean : forall s, clean (clear_str s) /\ letters (clear_str s) = letters s.
Proof.
  intro s. pose (t := replace_go [lf] [] 0 s). pose (u := replace_go [sp; sp] [] 0 t). change (clear_str s) with (trim is_sp u).
  destruct (trim_split is_sp u) as (p & q & E & Hp & Hq). split; [repeat split|].
  - intro Hin. assert (Hu : In lf u) by (rewrite E, !in_app_iff; auto). apply in_spaces in Hu. unfold t in Hu. rewrite newlines_gone in Hu.
    apply filter_In in Hu as [_ Hu]. discriminate Hu.
  - intros a b X. apply (spaces_no_two t (p ++ a) (b ++ q)). fold u. rewrite E, X, <- !app_assoc. reflexivity.
  - intros w X. apply trim_head in X. discriminate X.
  - intros w X. apply trim_last in X. discriminate X.
  - transitivity (letters u).
    + rewrite E at 2. rewrite !letters_app, (letters_spaces p Hp), (letters_spaces q Hq), app_nil_r. reflexivity.
    + unfold u. rewrite spaces_letters. unfold t. rewrite newlines_gone. unfold letters. clear. induction s as [|c s IH]; [reflexivity|]. cbn [filter].
      destruct (Ascii.eqb c lf) eqn:B; cbn [negb orb filter]; rewrite ?B; cbn [negb orb]; rewrite IH; reflexivity.
Qed.
