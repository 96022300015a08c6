(** Documents whose elements have the same styles give the same calls (C95). *)
From Coq Require Import Permutation Lia.
From Verif Require Import GoStr Num Style Class Instr Engine Layout Grid GridFacts Table Lines Proc.
Local Open Scope nat_scope.

(** Instructions that are equal but for their styles, which are related by [R]. *)
Section Alike.
Context {F : Type}.
Variable R : Styled F -> Styled F -> Prop.
Inductive alike : instr F -> instr F -> Prop :=
| A_font st st' : R st st' -> alike (IFont st) (IFont st')
| A_lf x : alike (ILineFeed x) (ILineFeed x)
| A_setx x : alike (ISetX x) (ISetX x)
| A_sety x : alike (ISetY x) (ISetY x)
| A_box st st' iss iss' : R st st' -> Forall2 alike iss iss' -> alike (IBox st iss) (IBox st' iss')
| A_text st st' iss iss' : R st st' -> Forall2 alike iss iss' -> alike (IText st iss) (IText st' iss')
| A_image st st' src : R st st' -> alike (IImage st src) (IImage st' src)
| A_block t : alike (ITextBlock t) (ITextBlock t)
| A_par st st' t : R st st' -> alike (IParagraph st t) (IParagraph st' t)
| A_br : alike ILineBreak ILineBreak
| A_newpage : alike IPageBreak IPageBreak
| A_table st st' n rows rows' : R st st' -> Forall2 arow rows rows' -> alike (ITable (XTable st n rows)) (ITable (XTable st' n rows'))
| A_row r r' : arow r r' -> alike (ITableRow r) (ITableRow r')
| A_cell c c' : acell c c' -> alike (ITableCell c) (ITableCell c')
| A_grid st st' rows rows' parts parts' : R st st' -> Forall2 agrid rows rows' -> Forall2 apart parts parts' ->
    alike (IGrid st rows parts) (IGrid st' rows' parts')
| A_gridrow r r' : agrid r r' -> alike (IGridRow r) (IGridRow r')
| A_gridpart p p' : apart p p' -> alike (IGridPart p) (IGridPart p')
with arow : xrow F -> xrow F -> Prop :=
| A_xrow st st' cells cells' : R st st' -> Forall2 acell cells cells' -> arow (XRow st cells) (XRow st' cells')
with acell : xcell F -> xcell F -> Prop :=
| A_xcell st st' cs rs iss iss' : R st st' -> Forall2 alike iss iss' -> acell (XCell st cs rs iss) (XCell st' cs rs iss')
with agrid : xgridrow F -> xgridrow F -> Prop :=
| A_xgrid st st' areas : R st st' -> agrid (XGridRow st areas) (XGridRow st' areas)
with apart : xgridpart F -> xgridpart F -> Prop :=
| A_xpart st st' area iss iss' : R st st' -> Forall2 alike iss iss' -> apart (XGridPart st area iss) (XGridPart st' area iss').
End Alike.

Section Run.
Context {F : Num} (env1 env2 : Env F).
Variable same : Styled F -> Styled F -> Prop.
Hypothesis Hsame : forall st1 st2, same st1 st2 ->
  (forall s, e_mut env1 st1 s = e_mut env2 st2 s) /\ forall sel s, e_mut_sel env1 sel st1 s = e_mut_sel env2 sel st2 s.
Local Notation al := (alike same).
Local Notation als := (Forall2 (alike same)).
Hypothesis Hhyph : forall b, e_hyph env1 b = e_hyph env2 b.
Hypothesis Hresolve : forall b, e_resolve env1 b = e_resolve env2 b.
Hypothesis Himage : forall b, e_image env1 b = e_image env2 b.
Hypothesis Hsh1 : forall l, Permutation (e_shuffle env1 l) l.
Hypothesis Hsh2 : forall l, Permutation (e_shuffle env2 l) l.
Hypothesis Hheader : als (e_header env1) (e_header env2).
Hypothesis Hfooter : als (e_footer env1) (e_footer env2).
Hypothesis Hbody : als (e_body env1) (e_body env2).

Lemma f2_length : forall {A B} {P : A -> B -> Prop} {l l'}, Forall2 P l l' -> List.length l = List.length l'.
Proof. intros A B P l l' H. induction H; cbn; congruence. Qed.

(** ** Tables *)
Definition csim (x y : tcell F) : Prop :=
  c_sty x = c_sty y /\ als (c_iss x) (c_iss y) /\ c_colSpan x = c_colSpan y /\ c_rowSpan x = c_rowSpan y /\
  c_rowIdx x = c_rowIdx y /\ c_cellIdx x = c_cellIdx y /\ c_minHeight x = c_minHeight y /\ c_height x = c_height y /\
  c_width x = c_width y /\ c_spannedBy x = c_spannedBy y /\ c_spansCols x = c_spansCols y /\ c_spansRows x = c_spansRows y /\
  c_zero x = c_zero y.
Definition hsim (h h' : heap F) : Prop := h_next h = h_next h' /\ forall c, csim (deref h c) (deref h' c).
Definition hs {A} (p q : heap F * A) : Prop := hsim (fst p) (fst q) /\ snd p = snd q.

Lemma csim_new : forall sty iss iss' cs rs sb z, als iss iss' ->
  csim (mkCell sty iss cs rs 0 0 zero zero zero sb [] [] z) (mkCell sty iss' cs rs 0 0 zero zero zero sb [] [] z).
Proof. intros. unfold csim. cbn. tauto. Qed.
Lemma csim_same : forall x, c_iss x = [] -> csim x x.
Proof. intros x H. unfold csim. rewrite H. repeat (split; [try reflexivity; try constructor|]). reflexivity. Qed.
Lemma store_sim : forall c x y h h', hsim h h' -> csim x y -> hsim (store c x h) (store c y h').
Proof. intros c x y h h' [A B] H. split; [exact A|]. intro d. unfold deref, store. cbn. destruct (Nat.eqb d c); [exact H|apply B]. Qed.
Lemma alloc_sim : forall x y h h', hsim h h' -> csim x y -> fst (alloc x h) = fst (alloc y h') /\ hsim (snd (alloc x h)) (snd (alloc y h')).
Proof.
  intros x y h h' [A B] H. cbn. split; [exact A|]. split; [cbn; congruence|]. intro d. unfold deref. cbn. rewrite <- A.
  destruct (Nat.eqb d (h_next h)); [exact H|apply B].
Qed.
Lemma update_sim : forall c f g h h', hsim h h' -> (forall x y, csim x y -> csim (f x) (g y)) -> hsim (update c f h) (update c g h').
Proof. intros c f g h h' H Hf. apply store_sim; [exact H|]. apply Hf, H. Qed.
Ltac csims := let H := fresh in intros ? ? H; unfold csim in *; cbn; intuition congruence.

Lemma col_placeholders_sim : forall n cell h h', hsim h h' -> hs (col_placeholders n cell h) (col_placeholders n cell h').
Proof.
  induction n as [|n IH]; intros cell h h' H; [split; [exact H|reflexivity]|]. cbn [col_placeholders].
  assert (Ec : c_rowSpan (deref h cell) = c_rowSpan (deref h' cell)) by apply H. rewrite Ec.
  destruct (alloc_sim (spanned_cell cell (c_rowSpan (deref h' cell))) (spanned_cell cell (c_rowSpan (deref h' cell))) h h' H) as [E1 E2];
    [apply csim_same; reflexivity|].
  destruct (alloc _ h) as [p h1], (alloc _ h') as [p' h1']. cbn in E1, E2. subst p'.
  assert (E3 : hsim (update cell (fun x : tcell F => with_spansCols (c_spansCols x ++ [p]) x) h1) (update cell (fun x : tcell F => with_spansCols (c_spansCols x ++ [p]) x) h1'))
    by (apply update_sim; [exact E2|csims]).
  specialize (IH cell _ _ E3). destruct (col_placeholders n cell _) as [h2 ps], (col_placeholders n cell _) as [h2' ps'].
  destruct IH as [A B]. cbn in A, B. subst ps'. split; [exact A|reflexivity].
Qed.
Lemma col_span_sim : forall cells h h', hsim h h' -> hs (col_span_cells cells h) (col_span_cells cells h').
Proof.
  induction cells as [|c cells IH]; intros h h' H; [split; [exact H|reflexivity]|]. cbn [col_span_cells].
  assert (Ec : c_colSpan (deref h c) = c_colSpan (deref h' c)) by apply H. rewrite Ec.
  assert (E : hs (if (c_colSpan (deref h' c) <=? 1)%Z then (h, []) else col_placeholders (Z.to_nat (c_colSpan (deref h' c) - 1)) c h)
                 (if (c_colSpan (deref h' c) <=? 1)%Z then (h', []) else col_placeholders (Z.to_nat (c_colSpan (deref h' c) - 1)) c h')).
  { destruct (_ <=? _)%Z; [split; [exact H|reflexivity]|apply col_placeholders_sim, H]. }
  match goal with |- hs (let '(_, _) := ?p in _) (let '(_, _) := ?q in _) => destruct p as [h1 ps], q as [h1' ps'] end. destruct E as [A B]. cbn in A, B. subst ps'.
  specialize (IH _ _ A). destruct (col_span_cells cells h1) as [h2 r], (col_span_cells cells h1') as [h2' r']. destruct IH as [A' B']. cbn in A', B'. subst r'.
  split; [exact A'|reflexivity].
Qed.
Lemma column_spans_sim : forall rows h h', hsim h h' -> hs (processColumnSpans rows h) (processColumnSpans rows h').
Proof.
  induction rows as [|r rows IH]; intros h h' H; [split; [exact H|reflexivity]|]. cbn [processColumnSpans].
  assert (E := col_span_sim (r_cells r) h h' H). destruct (col_span_cells _ h) as [h1 cs], (col_span_cells _ h') as [h1' cs']. destruct E as [A B]. cbn in A, B. subst cs'.
  specialize (IH _ _ A). destruct (processColumnSpans rows h1) as [h2 q], (processColumnSpans rows h1') as [h2' q']. destruct IH as [A' B']. cbn in A', B'. subst q'.
  split; [exact A'|reflexivity].
Qed.
Lemma zero_cells_sim : forall n h h', hsim h h' -> hs (zero_cells n h) (zero_cells n h').
Proof.
  induction n as [|n IH]; intros h h' H; [split; [exact H|reflexivity]|]. cbn [zero_cells].
  destruct (alloc_sim zero_cell zero_cell h h' H) as [E1 E2]; [apply csim_same; reflexivity|].
  destruct (alloc _ h) as [p h1], (alloc _ h') as [p' h1']. cbn in E1, E2. subst p'. specialize (IH _ _ E2).
  destruct (zero_cells n h1) as [h2 q], (zero_cells n h1') as [h2' q']. destruct IH as [A' B']. cbn in A', B'. subst q'. split; [exact A'|reflexivity].
Qed.
Lemma pad_cells_sim : forall n cells h h', hsim h h' -> hs (pad_cells n cells h) (pad_cells n cells h').
Proof.
  intros n cells h h' H. unfold pad_cells. assert (E := zero_cells_sim (n - List.length cells) h h' H).
  destruct (zero_cells _ h) as [h1 q], (zero_cells _ h') as [h1' q']. destruct E as [A B]. cbn in A, B. subst q'. split; [exact A|reflexivity].
Qed.
Lemma row_placeholders_sim : forall n ic cell ri rows h h', hsim h h' -> hs (row_placeholders n ic cell ri rows h) (row_placeholders n ic cell ri rows h').
Proof.
  induction n as [|n IH]; intros ic cell ri rows h h' H; [split; [exact H|reflexivity]|]. cbn [row_placeholders].
  match goal with |- hs (let '(_, _) := ?p in _) _ => destruct p as [rows1 i] end. assert (E := pad_cells_sim ic (r_cells (nth i rows1 empty_row)) h h' H).
  destruct (pad_cells ic _ h) as [h1 q], (pad_cells ic _ h') as [h1' q']. destruct E as [A B]. cbn in A, B. subst q'.
  destruct (alloc_sim (spanned_cell cell 0%Z) (spanned_cell cell 0%Z) h1 h1' A) as [E1 E2]; [apply csim_same; reflexivity|].
  destruct (alloc _ h1) as [p h2], (alloc _ h1') as [p' h2']. cbn in E1, E2. subst p'. apply IH, update_sim; [exact E2|csims].
Qed.
Lemma row_span_cells_sim : forall cells ir ic rows h h', hsim h h' -> hs (row_span_cells ir ic cells rows h) (row_span_cells ir ic cells rows h').
Proof.
  induction cells as [|c cells IH]; intros ir ic rows h h' H; [split; [exact H|reflexivity]|]. cbn [row_span_cells].
  assert (Er : c_rowSpan (deref h c) = c_rowSpan (deref h' c)) by apply H. assert (Es : c_spannedBy (deref h c) = c_spannedBy (deref h' c)) by apply H.
  assert (Ez : c_zero (deref h c) = c_zero (deref h' c)) by apply H. rewrite Er, Es, Ez.
  match goal with |- hs (let '(_, _) := ?p in _) (let '(_, _) := ?q in _) => assert (E : hs p q) end.
  { destruct (_ <=? _)%Z; [split; [exact H|reflexivity]|]. destruct (_ || _); [split; [exact H|reflexivity]|]. apply row_placeholders_sim, H. }
  match goal with |- hs (let '(_, _) := ?p in _) (let '(_, _) := ?q in _) => destruct p as [h1 q1], q as [h1' q1'] end.
  destruct E as [A B]. cbn in A, B. subst q1'. apply IH, A.
Qed.
Lemma row_span_rows_sim : forall n ir rows h h', hsim h h' -> hs (row_span_rows n ir rows h) (row_span_rows n ir rows h').
Proof.
  induction n as [|n IH]; intros ir rows h h' H; [split; [exact H|reflexivity]|]. cbn [row_span_rows].
  assert (E := row_span_cells_sim (r_cells (nth ir rows empty_row)) ir 0 rows h h' H).
  destruct (row_span_cells _ _ _ _ h) as [h1 q], (row_span_cells _ _ _ _ h') as [h1' q']. destruct E as [A B]. cbn in A, B. subst q'. apply IH, A.
Qed.
Lemma pad_rows_sim : forall n rows h h', hsim h h' -> hs (pad_rows n rows h) (pad_rows n rows h').
Proof.
  induction rows as [|r rows IH]; intros h h' H; [split; [exact H|reflexivity]|]. cbn [pad_rows].
  assert (E := pad_cells_sim n (r_cells r) h h' H). destruct (pad_cells _ _ h) as [h1 cs], (pad_cells _ _ h') as [h1' cs']. destruct E as [A B]. cbn in A, B. subst cs'.
  specialize (IH _ _ A). destruct (pad_rows n rows h1) as [h2 q], (pad_rows n rows h1') as [h2' q']. destruct IH as [A' B']. cbn in A', B'. subst q'.
  split; [exact A'|reflexivity].
Qed.
Lemma index_cells_sim : forall cells ir ic h h', hsim h h' -> hsim (index_cells ir ic cells h) (index_cells ir ic cells h').
Proof. induction cells as [|c cells IH]; intros ir ic h h' H; [exact H|]. cbn [index_cells]. apply IH, update_sim; [exact H|csims]. Qed.
Lemma index_rows_sim : forall rows ir h h', hsim h h' -> hsim (index_rows ir rows h) (index_rows ir rows h').
Proof. induction rows as [|r rows IH]; intros ir h h' H; [exact H|]. cbn [index_rows]. apply IH, index_cells_sim, H. Qed.
Lemma spans_sim : forall t h h', hsim h h' -> hs (processSpans t h) (processSpans t h').
Proof.
  intros t h h' H. unfold processSpans. assert (E := column_spans_sim (t_rows t) h h' H).
  destruct (processColumnSpans _ h) as [h1 q], (processColumnSpans _ h') as [h1' q']. destruct E as [A B]. cbn in A, B. subst q'.
  unfold processRowSpans. assert (E := row_span_rows_sim (List.length q) 0 q _ _ A).
  destruct (row_span_rows _ _ _ h1) as [h2 r], (row_span_rows _ _ _ h1') as [h2' r']. destruct E as [A' B']. cbn in A', B'. subst r'.
  unfold normalize. cbn [t_rows t_sty]. assert (E := pad_rows_sim (max_cells r 0) r _ _ A').
  destruct (pad_rows _ _ h2) as [h3 s], (pad_rows _ _ h2') as [h3' s']. destruct E as [A2 B2]. cbn in A2, B2. subst s'.
  split; [apply index_rows_sim, A2|reflexivity].
Qed.
Lemma max_widths_sim : forall h h', hsim h h' -> forall cells cws, max_widths h cells cws = max_widths h' cells cws.
Proof.
  intros h h' H. induction cells as [|c cells IH]; intros [|w cws]; try reflexivity. cbn [max_widths]. rewrite IH.
  assert (E : c_sty (deref h c) = c_sty (deref h' c)) by apply H. rewrite E. reflexivity.
Qed.
Lemma max_widths_rows_sim : forall h h', hsim h h' -> forall rows cws, max_widths_rows h rows cws = max_widths_rows h' rows cws.
Proof.
  intros h h' H. induction rows as [|r rows IH]; intro cws; [reflexivity|]. cbn [max_widths_rows]. rewrite (max_widths_sim h h' H).
  destruct (max_widths h' _ _); [apply IH|reflexivity].
Qed.
Definition ohsim (a b : option (heap F)) : Prop := match a, b with Some h, Some h' => hsim h h' | None, None => True | _, _ => False end.
Lemma set_widths_sim : forall cells cws h h', hsim h h' -> ohsim (set_widths cells cws h) (set_widths cells cws h').
Proof.
  induction cells as [|c cells IH]; intros [|w cws] h h' H; try exact H; [exact I|]. cbn [set_widths]. apply IH, update_sim; [exact H|csims].
Qed.
Lemma set_widths_rows_sim : forall rows cws h h', hsim h h' -> ohsim (set_widths_rows rows cws h) (set_widths_rows rows cws h').
Proof.
  induction rows as [|r rows IH]; intros cws h h' H; [exact H|]. cbn [set_widths_rows]. assert (E := set_widths_sim (r_cells r) cws h h' H).
  destruct (set_widths _ _ h), (set_widths _ _ h'); try contradiction; [apply IH, E|exact I].
Qed.
Lemma assignColumnWidths_sim : forall t w h h', hsim h h' -> ohsim (assignColumnWidths t w h) (assignColumnWidths t w h').
Proof.
  intros t w h h' H. unfold assignColumnWidths. rewrite (max_widths_rows_sim h h' H). destruct (max_widths_rows _ _ _) as [cws|]; [|exact I].
  destruct (space_used cws zero 0%Z) as [a z]. apply set_widths_rows_sim, H.
Qed.
Lemma cell_dim_sim : forall h h', hsim h h' -> forall c, cell_dim h c = cell_dim h' c.
Proof.
  intros h h' H c. unfold cell_dim. destruct (proj2 H c) as (_ & _ & _ & _ & _ & _ & _ & Eh & Ew & _ & Ec & Er & _). rewrite Eh, Ew, Ec, Er.
  assert (W : forall l w, fold_left (fun w sc => add w (c_width (deref h sc))) l w = fold_left (fun w sc => add w (c_width (deref h' sc))) l w).
  { induction l as [|d l IH]; intro w; [reflexivity|]. cbn. assert (E : c_width (deref h d) = c_width (deref h' d)) by apply H. rewrite E. apply IH. }
  assert (V : forall l w, fold_left (fun w sc => add w (c_height (deref h sc))) l w = fold_left (fun w sc => add w (c_height (deref h' sc))) l w).
  { induction l as [|d l IH]; intro w; [reflexivity|]. cbn. assert (E : c_height (deref h d) = c_height (deref h' d)) by apply H. rewrite E. apply IH. }
  rewrite W, V. reflexivity.
Qed.
Lemma maxCellHeight_sim : forall h h', hsim h h' -> forall row, maxCellHeight h row = maxCellHeight h' row.
Proof.
  intros h h' H row. unfold maxCellHeight. generalize (@zero F). induction (r_cells row) as [|c l IH]; intro m; [reflexivity|]. cbn [fold_left].
  rewrite (cell_dim_sim h h' H). apply IH.
Qed.
Lemma head_height_sim : forall h h', hsim h h' -> forall rows n, head_height h rows n = head_height h' rows n.
Proof.
  intros h h' H rows n. unfold head_height. generalize (@zero F). induction (seq 0 _) as [|i l IH]; intro m; [reflexivity|]. cbn [fold_left].
  destruct (nth_error rows i); [rewrite (maxCellHeight_sim h h' H)|]; apply IH.
Qed.
Lemma row_min_height_sim : forall h h', hsim h h' -> forall row, row_min_height h row = row_min_height h' row.
Proof.
  intros h h' H row. unfold row_min_height. generalize (@zero F). induction (r_cells row) as [|c l IH]; intro m; [reflexivity|]. cbn [fold_left].
  assert (E : c_minHeight (deref h c) = c_minHeight (deref h' c)) by apply H. rewrite E. apply IH.
Qed.
Lemma set_heights_sim : forall rows h h', hsim h h' -> hsim (set_heights rows h) (set_heights rows h').
Proof.
  unfold set_heights. induction rows as [|r rows IH]; intros h h' H; [exact H|]. cbn [fold_left]. apply IH. clear IH. revert h h' H.
  induction (r_cells r) as [|c l IH]; intros h h' H; [exact H|]. cbn [fold_left]. apply IH, update_sim; [exact H|csims].
Qed.
Lemma build_cells_sim : forall xcells xcells', Forall2 (acell same) xcells xcells' -> forall sty n ic h h', hsim h h' ->
  hs (build_cells (e_mut env1) (e_mut_sel env1) sty n ic xcells h) (build_cells (e_mut env2) (e_mut_sel env2) sty n ic xcells' h').
Proof.
  induction 1 as [|? ? ? ? Hc _ IH]; intros sty n ic h h' H; [split; [exact H|reflexivity]|]. destruct Hc as [st st' cs rs iss iss' Hs0 Hi]. destruct (Hsame _ _ Hs0) as [Hs Hsel]. cbn [build_cells].
  rewrite Hs, !Hsel. set (sty' := if Nat.eqb ic 0 then _ else _).
  destruct (alloc_sim (mkCell sty' iss cs rs 0 0 zero zero zero None [] [] false) (mkCell sty' iss' cs rs 0 0 zero zero zero None [] [] false) h h' H) as [E1 E2];
    [apply csim_new, Hi|].
  destruct (alloc _ h) as [p h1], (alloc _ h') as [p' h1']. cbn in E1, E2. subst p'. specialize (IH sty n (S ic) _ _ E2).
  destruct (build_cells _ _ _ _ _ _ h1) as [h2 q], (build_cells _ _ _ _ _ _ h1') as [h2' q']. destruct IH as [A B]. cbn in A, B. subst q'. split; [exact A|reflexivity].
Qed.
Lemma build_rows_sim : forall xrows xrows', Forall2 (arow same) xrows xrows' -> forall sty n ir h h', hsim h h' ->
  hs (build_rows (e_mut env1) (e_mut_sel env1) sty n ir xrows h) (build_rows (e_mut env2) (e_mut_sel env2) sty n ir xrows' h').
Proof.
  induction 1 as [|? ? ? ? Hr _ IH]; intros sty n ir h h' H; [split; [exact H|reflexivity]|]. destruct Hr as [st st' cells cells' Hs0 Hc]. destruct (Hsame _ _ Hs0) as [Hs Hsel]. cbn [build_rows].
  rewrite Hs, !Hsel. rewrite (f2_length Hc). set (sty' := if Nat.eqb ir 0 then _ else _).
  assert (E := build_cells_sim _ _ Hc sty' (List.length cells') 0 h h' H).
  destruct (build_cells _ _ _ _ _ _ h) as [h1 q], (build_cells _ _ _ _ _ _ h') as [h1' q']. destruct E as [A B]. cbn in A, B. subst q'. specialize (IH sty n (S ir) _ _ A).
  destruct (build_rows _ _ _ _ _ _ h1) as [h2 r], (build_rows _ _ _ _ _ _ h1') as [h2' r']. destruct IH as [A' B']. cbn in A', B'. subst r'. split; [exact A'|reflexivity].
Qed.
Lemma empty_sim : hsim (@empty_heap F) empty_heap.
Proof. split; [reflexivity|]. intro c. apply csim_same. reflexivity. Qed.
Lemma buildTable_sim : forall sty xrows xrows', Forall2 (arow same) xrows xrows' ->
  hs (buildTable (e_mut env1) (e_mut_sel env1) sty xrows) (buildTable (e_mut env2) (e_mut_sel env2) sty xrows').
Proof.
  intros sty xrows xrows' H. unfold buildTable. rewrite (f2_length H). assert (E := build_rows_sim _ _ H sty (List.length xrows') 0 _ _ empty_sim).
  destruct (build_rows _ _ _ _ _ _ _) as [h1 q], (build_rows _ _ _ _ _ _ _) as [h1' q']. destruct E as [A B]. cbn in A, B. subst q'. split; [exact A|reflexivity].
Qed.

(** ** Text *)
Context {eng : Engine F}.
Local Notation St := (St eng).
Local Notation M := (M eng).
Local Notation PS := (PS F eng).
Lemma sbind_ext : forall {A B} (m m' : St A) (k k' : A -> St B), (forall s, m s = m' s) -> (forall a s, k a s = k' a s) -> forall s, sbind m k s = sbind m' k' s.
Proof. intros A B m m' k k' H H' s. unfold sbind. rewrite H. destruct (m' s). apply H'. Qed.
Lemma bind_ext : forall {A B} (m m' : M A) (k k' : A -> M B), (forall s, m s = m' s) -> (forall a s, k a s = k' a s) -> forall s, bind m k s = bind m' k' s.
Proof. intros A B m m' k k' H H' s. unfold bind. rewrite H. destruct (m' s); auto. Qed.
Lemma lift_ext : forall {A} (m m' : St A), (forall s, m s = m' s) -> forall s, lift m s = lift m' s.
Proof. intros A m m' H s. unfold lift. rewrite H. reflexivity. Qed.

Lemma read_piece_same : forall sty i j, al i j -> forall s : PS, read_piece (e_mut env1) sty i s = read_piece (e_mut env2) sty j s.
Proof. intros sty i j H s. destruct H; try reflexivity. cbn [read_piece]. rewrite (proj1 (Hsame _ _ H)). reflexivity. Qed.
Lemma place_pieces_same : forall width sty i j, als i j -> forall lines curr (s : PS),
  place_pieces (e_mut env1) width sty i lines curr s = place_pieces (e_mut env2) width sty j lines curr s.
Proof.
  induction 1 as [|x y l m Hx _ IH]; intros lines curr s; [reflexivity|]. cbn [place_pieces]. apply sbind_ext; [intro; apply read_piece_same, Hx|].
  intros [|it|] s'; [apply IH| |apply IH]. destruct (i_text it); [apply IH|]. apply sbind_ext; [reflexivity|]. intros _. apply sbind_ext; [reflexivity|].
  intros r s2. apply IH.
Qed.
Lemma textHeight_same : forall i j, als i j -> forall width sty (s : PS), textHeight (e_mut env1) i width sty s = textHeight (e_mut env2) j width sty s.
Proof.
  intros i j H width sty. unfold textHeight, textLines. apply sbind_ext; [reflexivity|]. intros _. apply sbind_ext; [|reflexivity].
  apply sbind_ext; [intro; apply place_pieces_same, H|reflexivity].
Qed.
Lemma tryHyphenate_same : forall width w c (s : PS), tryHyphenate (e_hyph env1) width w c s = tryHyphenate (e_hyph env2) width w c s.
Proof. intros. unfold tryHyphenate. rewrite Hhyph. reflexivity. Qed.
Lemma place_words_h_same : forall width sty ws lines curr (s : PS),
  place_words_h (e_hyph env1) width sty ws lines curr s = place_words_h (e_hyph env2) width sty ws lines curr s.
Proof.
  induction ws as [|w ws IH]; intros lines curr s; [reflexivity|]. cbn [place_words_h]. apply sbind_ext; [reflexivity|]. intro iw. apply sbind_ext; [reflexivity|]. intro pw.
  apply sbind_ext.
  - intro s'. destruct (leb _ _); [|reflexivity]. apply sbind_ext; [intro; apply tryHyphenate_same|reflexivity].
  - intros [[[[l c] wd] a] b] s'. apply IH.
Qed.
Lemma place_pieces_h_same : forall width sty i j, als i j -> forall lines curr (s : PS),
  place_pieces_h (e_mut env1) (e_hyph env1) width sty i lines curr s = place_pieces_h (e_mut env2) (e_hyph env2) width sty j lines curr s.
Proof.
  induction 1 as [|x y l m Hx _ IH]; intros lines curr s; [reflexivity|]. cbn [place_pieces_h]. apply sbind_ext; [intro; apply read_piece_same, Hx|].
  intros [|it|] s'; [apply IH| |apply IH]. apply sbind_ext; [reflexivity|]. intros _. apply sbind_ext; [intro; apply place_words_h_same|].
  intros r s2. apply IH.
Qed.
Lemma textLinesH_same : forall i j, als i j -> forall width sty (s : PS),
  textLinesHyphenated (e_mut env1) (e_hyph env1) i width sty s = textLinesHyphenated (e_mut env2) (e_hyph env2) j width sty s.
Proof. intros i j H width sty. unfold textLinesHyphenated. apply sbind_ext; [intro; apply place_pieces_h_same, H|reflexivity]. Qed.
Lemma textHeightFnc_same : forall sty i j, als i j -> forall width sty' (s : PS),
  p_textHeightFnc env1 sty i width sty' s = p_textHeightFnc env2 sty j width sty' s.
Proof.
  intros sty i j H width sty'. unfold p_textHeightFnc, textHeightFnc. destruct (beqb _ _); [|apply textHeight_same, H].
  unfold textHeightHyphenated. apply sbind_ext; [reflexivity|]. intros _. apply sbind_ext; [intro; apply textLinesH_same, H|reflexivity].
Qed.

Section Callback.
Variables cb1 cb2 : cb -> M unit.
Hypothesis Hcb : forall c s, cb1 c s = cb2 c s.
Lemma run_calls_same : forall p acc s, run_calls cb1 p acc s = run_calls cb2 p acc s.
Proof.
  induction p as [e|c e k IH]; intros acc s; [reflexivity|]. cbn [run_calls]. rewrite Hcb. destruct (cb2 c _); [apply IH|reflexivity|reflexivity].
Qed.
Lemma command_same : forall c p s, command cb1 c p s = command cb2 c p s.
Proof. intros. unfold command. rewrite run_calls_same. reflexivity. Qed.
Lemma write_items_same : forall items s, write_items cb1 items s = write_items cb2 items s.
Proof.
  induction items as [|it items IH]; [reflexivity|]. cbn [write_items]. apply bind_ext; [reflexivity|intros _]. apply bind_ext; [intro; apply command_same|]. intros _. exact IH.
Qed.
Lemma write_lines_same : forall width x sty lines s, write_lines cb1 width x sty lines s = write_lines cb2 width x sty lines s.
Proof.
  induction lines as [|l lines IH]; [reflexivity|]. cbn [write_lines]. apply bind_ext; [reflexivity|intros _]. apply bind_ext; [intro; apply write_items_same|intros _].
  apply bind_ext; [reflexivity|intros _]. exact IH.
Qed.
Lemma write_spaced_same : forall w items s, write_spaced cb1 w items s = write_spaced cb2 w items s.
Proof.
  induction items as [|it items IH]; [reflexivity|]. cbn [write_spaced]. apply bind_ext; [reflexivity|intros _]. apply bind_ext; [intro; apply command_same|intros _].
  apply bind_ext; [reflexivity|intro xy]. apply bind_ext; [reflexivity|intros _]. exact IH.
Qed.
Lemma write_lines_h_same : forall width x sty lines s, write_lines_h cb1 width x sty lines s = write_lines_h cb2 width x sty lines s.
Proof.
  induction lines as [|l lines IH]; [reflexivity|]. cbn [write_lines_h]. apply bind_ext; [reflexivity|intros _]. apply bind_ext.
  - intro s. destruct (_ || _); [apply write_items_same|apply write_spaced_same].
  - intros _. apply bind_ext; [reflexivity|intros _]. exact IH.
Qed.
Lemma writeTextFnc_same : forall sty i j, als i j -> forall width sty' s,
  p_writeTextFnc env1 cb1 sty i width sty' s = p_writeTextFnc env2 cb2 sty j width sty' s.
Proof.
  intros sty i j H width sty'. unfold p_writeTextFnc, writeTextFnc. destruct (beqb _ _).
  - unfold writeTextHyphenated. apply bind_ext; [reflexivity|intros _]. apply bind_ext; [reflexivity|intros _].
    apply bind_ext; [apply lift_ext; intro; apply textLinesH_same, H|intro lines]. apply bind_ext; [reflexivity|intro xy]. apply write_lines_h_same.
  - unfold writeText. apply bind_ext; [reflexivity|intros _]. apply bind_ext; [reflexivity|intros _].
    apply bind_ext; [apply lift_ext; unfold textLines; apply sbind_ext; [intro; apply place_pieces_same, H|reflexivity]|intro lines].
    apply bind_ext; [reflexivity|intro xy]. apply write_lines_same.
Qed.
Lemma renderText_same : forall st st' i j, same st st' -> als i j -> forall s, renderText env1 cb1 st i s = renderText env2 cb2 st' j s.
Proof.
  intros st st' i j Hs H. unfold renderText. destruct H as [|x y l m Hx H]; [reflexivity|]. apply bind_ext; [reflexivity|intro y0]. rewrite (proj1 (Hsame _ _ Hs)).
  apply bind_ext; [reflexivity|intro pg]. apply bind_ext; [intro; apply writeTextFnc_same; constructor; assumption|reflexivity].
Qed.
Lemma box_text_height_same : forall i j, als i j -> forall w sty (s : PS), box_text_height env1 i w sty s = box_text_height env2 j w sty s.
Proof.
  intros i j H w sty s. unfold box_text_height. destruct (leb _ _); [|reflexivity]. destruct H; [reflexivity|]. apply textHeightFnc_same. constructor; assumption.
Qed.
Lemma textBoxHeight_same : forall st st' i j, same st st' -> als i j -> forall pa (s : PS), textBoxHeight env1 st i pa s = textBoxHeight env2 st' j pa s.
Proof.
  intros st st' i j Hs H pa. unfold textBoxHeight. apply sbind_ext; [reflexivity|intro y]. rewrite (proj1 (Hsame _ _ Hs)). apply sbind_ext; [intro; apply box_text_height_same, H|reflexivity].
Qed.
Lemma renderTextBox_same : forall st st' i j, same st st' -> als i j -> forall pa s, renderTextBox env1 cb1 st i pa s = renderTextBox env2 cb2 st' j pa s.
Proof.
  intros st st' i j Hs H pa. unfold renderTextBox. apply bind_ext; [reflexivity|intro y]. rewrite (proj1 (Hsame _ _ Hs)).
  apply bind_ext; [apply lift_ext; intro; apply box_text_height_same, H|intro height]. do 4 (apply bind_ext; [reflexivity|intro]).
  apply bind_ext; [intro s; destruct (_ && _); [|reflexivity]; apply bind_ext; [intro; apply command_same|reflexivity]|].
  intros [x0 y0]. do 3 (apply bind_ext; [reflexivity|intro]). apply bind_ext; [|reflexivity].
  destruct H; [reflexivity|]. apply writeTextFnc_same. constructor; assumption.
Qed.
Lemma renderImage_same : forall st st' src pa (s : PS), same st st' -> renderImage env1 st src pa s = renderImage env2 st' src pa s.
Proof.
  intros st st' src pa s Hs. unfold renderImage. rewrite Hresolve, Himage. destruct (e_image env2 _) as [[w h]|]; [|reflexivity].
  apply sbind_ext; [reflexivity|intro y]. rewrite (proj1 (Hsame _ _ Hs)). reflexivity.
Qed.
Lemma cell_boxes_same : forall v pa i j, als i j -> forall s, cell_boxes env1 cb1 v pa i s = cell_boxes env2 cb2 v pa j s.
Proof.
  induction 1 as [|x y l m Hx _ IH]; [reflexivity|]. cbn [cell_boxes]. apply bind_ext; [|intros _; exact IH]. intro s. destruct Hx; try reflexivity.
  - revert s. apply bind_ext; [apply lift_ext; intro; apply textBoxHeight_same; assumption|intro]. apply bind_ext; [reflexivity|intros _]. apply renderTextBox_same; assumption.
  - revert s. apply bind_ext; [reflexivity|intros _]. apply lift_ext. intro. apply renderImage_same. assumption.
Qed.
Lemma renderCell_same : forall pa x y, csim x y -> forall s, renderCell env1 cb1 pa x s = renderCell env2 cb2 pa y s.
Proof.
  intros pa x y (Es & Hi & _). unfold renderCell. rewrite Es. apply bind_ext; [reflexivity|intros _]. apply bind_ext.
  - destruct Hi; [reflexivity|]. apply bind_ext; [apply lift_ext; intro; apply textHeight_same; constructor; assumption|intro th].
    do 2 (apply bind_ext; [reflexivity|intros _]). apply writeTextFnc_same. constructor; assumption.
  - intros _. apply bind_ext; [reflexivity|intros _]. apply cell_boxes_same, Hi.
Qed.
Lemma render_cells_same : forall h h', hsim h h' -> forall cells x y s, render_cells env1 cb1 h cells x y s = render_cells env2 cb2 h' cells x y s.
Proof.
  intros h h' H. induction cells as [|c cells IH]; intros x y; [reflexivity|]. cbn [render_cells].
  assert (Es : c_spannedBy (deref h c) = c_spannedBy (deref h' c)) by apply H. assert (Ez : c_zero (deref h c) = c_zero (deref h' c)) by apply H.
  assert (Ew : c_width (deref h c) = c_width (deref h' c)) by apply H. rewrite Es, Ez, Ew, (cell_dim_sim h h' H).
  apply bind_ext; [|intros _; apply IH]. intro s. destruct (_ || _); [reflexivity|]. destruct (cell_dim h' c). apply renderCell_same, H.
Qed.
Lemma renderRow_same : forall h h', hsim h h' -> forall x y row s, renderRow env1 cb1 h x y row s = renderRow env2 cb2 h' x y row s.
Proof. intros h h' H x y row. unfold renderRow. apply bind_ext; [intro; apply render_cells_same, H|reflexivity]. Qed.
Lemma repeat_header_same : forall h h', hsim h h' -> forall rows x n i y s, repeat_header env1 cb1 h rows x n i y s = repeat_header env2 cb2 h' rows x n i y s.
Proof.
  intros h h' H rows x. induction n as [|n IH]; intros i y; [reflexivity|]. cbn [repeat_header]. apply bind_ext; [|intro; apply IH].
  intro s. destruct (nth_error rows i); [apply renderRow_same, H|reflexivity].
Qed.
Lemma render_rows_same : forall h h', hsim h h' -> forall rows n x b rest i y s, render_rows env1 cb1 h rows n x b i rest y s = render_rows env2 cb2 h' rows n x b i rest y s.
Proof.
  intros h h' H rows n x b. induction rest as [|row rest IH]; intros i y; [reflexivity|]. cbn [render_rows]. apply bind_ext; [reflexivity|intro prevent].
  rewrite (maxCellHeight_sim h h' H). apply bind_ext.
  - intro s. destruct (_ && _); [|reflexivity]. revert s. apply bind_ext; [intro; apply command_same|intros _]. apply bind_ext; [reflexivity|intro xy]. intro s.
    destruct (_ && _); [apply repeat_header_same, H|reflexivity].
  - intro y'. apply bind_ext; [intro; apply renderRow_same, H|intro]. apply IH.
Qed.

Lemma minHeights_sim : forall v l h h', hsim h h' ->
  hsim (fold_left (fun h sc => update sc (with_minHeight v) h) l h) (fold_left (fun h sc => update sc (with_minHeight v) h) l h').
Proof. induction l as [|d l IH]; intros h h' H; [exact H|]. cbn [fold_left]. apply IH, update_sim; [exact H|csims]. Qed.
Definition ssim {A} (P : A -> A -> Prop) (r r' : A * PS) : Prop := P (fst r) (fst r') /\ snd r = snd r'.
Lemma sbind_sim : forall {A B} (P : A -> A -> Prop) (Q : B -> B -> Prop) (m m' : St A) (k k' : A -> St B) s,
  ssim P (m s) (m' s) -> (forall a a' s, P a a' -> ssim Q (k a s) (k' a' s)) -> ssim Q (sbind m k s) (sbind m' k' s).
Proof. intros A B P Q m m' k k' s [H1 H2] H. unfold sbind. destruct (m s), (m' s). cbn in *. subst. apply H, H1. Qed.
Lemma sret_sim : forall {A} (P : A -> A -> Prop) a a' s, P a a' -> ssim P (sret a s) (sret a' s).
Proof. intros. split; [assumption|reflexivity]. Qed.
Lemma eq_sim : forall {A} (r r' : A * PS), r = r' -> ssim eq r r'.
Proof. intros A r r' ->. split; reflexivity. Qed.
Lemma assignCellMinHeight_same : forall c h h' (s : PS), hsim h h' -> ssim hsim (assignCellMinHeight env1 c h s) (assignCellMinHeight env2 c h' s).
Proof.
  intros c h h' s H. unfold assignCellMinHeight. destruct (proj2 H c) as (E1 & Ei & _ & _ & _ & _ & _ & _ & Ew & Eb & Ec & Er & Ez).
  rewrite E1, Ew, Eb, Ec, Er, Ez. destruct (_ || _); [apply sret_sim, H|]. destruct (ltb _ _).
  { apply sret_sim. apply update_sim; [exact H|csims]. }
  assert (W : forall l w, fold_left (fun w sc => add w (c_width (deref h sc))) l w = fold_left (fun w sc => add w (c_width (deref h' sc))) l w).
  { induction l as [|d l IH]; intro w; [reflexivity|]. cbn. assert (E : c_width (deref h d) = c_width (deref h' d)) by apply H. rewrite E. apply IH. }
  rewrite W. apply (sbind_sim eq); [apply eq_sim, textHeightFnc_same, Ei|]. intros th th' s' <-. apply sret_sim, minHeights_sim, update_sim; [exact H|csims].
Qed.
Lemma min_heights_same : forall cells h h' s, hsim h h' -> ssim hsim (min_heights env1 cells h s) (min_heights env2 cells h' s).
Proof.
  induction cells as [|c cells IH]; intros h h' s H; [apply sret_sim, H|]. cbn [min_heights]. apply (sbind_sim hsim); [apply assignCellMinHeight_same, H|]. intros. apply IH. assumption.
Qed.
Lemma min_heights_rows_same : forall rows h h' s, hsim h h' -> ssim hsim (min_heights_rows env1 rows h s) (min_heights_rows env2 rows h' s).
Proof.
  induction rows as [|r rows IH]; intros h h' s H; [apply sret_sim, H|]. cbn [min_heights_rows]. apply (sbind_sim hsim); [apply min_heights_same, H|]. intros. apply IH. assumption.
Qed.
Lemma assignHeights_same : forall t h h' s, hsim h h' -> ssim hs (assignHeights env1 t h s) (assignHeights env2 t h' s).
Proof.
  intros t h h' s H. unfold assignHeights. apply (sbind_sim hsim); [apply min_heights_rows_same, H|]. intros g g' s' G. apply sret_sim.
  assert (E : map (fun row => with_row_height (row_min_height g row) row) (t_rows t) = map (fun row => with_row_height (row_min_height g' row) row) (t_rows t)).
  { apply map_ext. intro row. rewrite (row_min_height_sim g g' G). reflexivity. }
  rewrite E. split; [apply set_heights_sim, G|reflexivity].
Qed.
Definition ohs (a b : option (heap F * table F)) : Prop := match a, b with Some p, Some q => hs p q | None, None => True | _, _ => False end.
Lemma transformTable_same : forall st st' xrows xrows' s, same st st' -> Forall2 (arow same) xrows xrows' ->
  ssim ohs (transformTable env1 st xrows s) (transformTable env2 st' xrows' s).
Proof.
  intros st st' xrows xrows' s Hs H. unfold transformTable. apply (sbind_sim eq); [apply eq_sim; reflexivity|]. intros y y' s1 <-. rewrite (proj1 (Hsame _ _ Hs)).
  assert (E := buildTable_sim (e_mut env2 st' y) _ _ H). destruct (buildTable _ _ _ xrows) as [h t], (buildTable _ _ _ xrows') as [h' t'].
  destruct E as [A B]. cbn in A, B. subst t'. assert (E := spans_sim t h h' A). destruct (processSpans t h) as [h1 t1], (processSpans t h') as [h1' t1'].
  destruct E as [A1 B1]. cbn in A1, B1. subst t1'. apply (sbind_sim eq); [apply eq_sim; reflexivity|]. intros pg pg' s2 <-.
  assert (E := assignColumnWidths_sim t1 (page_effective_width pg (Width (SDim (t_sty t1)))) _ _ A1).
  destruct (assignColumnWidths _ _ h1) as [h2|], (assignColumnWidths _ _ h1') as [h2'|]; try contradiction; [|apply sret_sim; exact I].
  apply (sbind_sim hs); [apply assignHeights_same, E|]. intros. apply sret_sim. assumption.
Qed.
Lemma renderTable_same : forall st st' n rows rows', same st st' -> Forall2 (arow same) rows rows' ->
  forall s, renderTable env1 cb1 (XTable st n rows) s = renderTable env2 cb2 (XTable st' n rows') s.
Proof.
  intros st st' n rows rows' Hs H s. unfold renderTable. unfold bind at 1. symmetry. unfold bind at 1. symmetry. unfold lift at 1. symmetry. unfold lift at 1. symmetry.
  destruct (transformTable_same st st' rows rows' s Hs H) as [A B]. destruct (transformTable env1 st rows s) as [r s1], (transformTable env2 st' rows' s) as [r' s1'].
  cbn in A, B. subst s1'. destruct r as [[h t]|], r' as [[h' t']|]; try contradiction; [|reflexivity]. destruct A as [A B]. cbn in A, B. subst t'.
  destruct (Nat.eqb _ _); [reflexivity|]. revert s1. apply bind_ext; [reflexivity|intro pg]. apply bind_ext; [reflexivity|intros [x0 y]]. apply bind_ext; [reflexivity|intro prevent].
  rewrite (head_height_sim h h' A). apply bind_ext.
  - intro s1. destruct (_ && _); [|reflexivity]. apply bind_ext; [intro; apply command_same|reflexivity].
  - intro y'. apply bind_ext; [intro; apply render_rows_same, A|reflexivity].
Qed.
Lemma processInstruction_same : forall i j, al i j -> forall s, processInstruction env1 cb1 i s = processInstruction env2 cb2 j s.
Proof.
  intros i j H. destruct H; cbn [processInstruction]; try reflexivity.
  - apply bind_ext; [reflexivity|intro y]. rewrite (proj1 (Hsame _ _ H)). reflexivity.
  - apply bind_ext; [reflexivity|intro pg]. apply renderTextBox_same; assumption.
  - apply renderText_same; assumption.
  - apply bind_ext; [reflexivity|intro pg]. apply lift_ext. intro. apply renderImage_same. assumption.
  - apply command_same.
  - apply renderTable_same; assumption.
  - assert (N : forall sh r, (forall l, Permutation (sh l) l) -> render_grid sh r <> GPanic).
    { intros sh r Hp E. assert (G := grid_main sh r Hp). rewrite E in G. exact G. }
    specialize (N _ (map gr_areas rows) Hsh1) as N1. specialize (N _ (map gr_areas rows') Hsh2) as N2.
    destruct (render_grid (e_shuffle env1) _), (render_grid (e_shuffle env2) _); congruence.
Qed.
Lemma processInstructions_same : forall i j, als i j -> forall s, processInstructions env1 cb1 i s = processInstructions env2 cb2 j s.
Proof.
  induction 1 as [|x y l m Hx _ IH]; [reflexivity|]. cbn [processInstructions]. apply bind_ext; [intro; apply processInstruction_same, Hx|intros _]. exact IH.
Qed.
Lemma run_callback_same : forall c s, run_callback env1 cb1 c s = run_callback env2 cb2 c s.
Proof.
  intro c. unfold run_callback. apply bind_ext; [reflexivity|intro xy]. apply bind_ext; [reflexivity|intros _]. apply bind_ext; [|reflexivity].
  intro s. apply processInstructions_same. destruct c; assumption.
Qed.
Lemma process_body_same : forall s, process_body env1 cb1 s = process_body env2 cb2 s.
Proof.
  unfold process_body. do 3 (apply bind_ext; [reflexivity|intros _]). apply bind_ext; [reflexivity|intro y]. apply bind_ext; [reflexivity|intros _].
  apply bind_ext; [intro; apply command_same|intros _]. apply bind_ext; [intro; apply processInstructions_same, Hbody|intros _]. apply bind_ext; [reflexivity|intro err].
  intro s. destruct err; [reflexivity|]. apply bind_ext; [intro; apply command_same|reflexivity].
Qed.
End Callback.
Lemma callbacks_same : forall depth c (s : PS), callbacks env1 depth c s = callbacks env2 depth c s.
Proof. induction depth as [|d IH]; intros c s; [reflexivity|]. cbn [callbacks]. apply run_callback_same. exact IH. Qed.
Lemma process_same : forall depth (e : est eng), process env1 depth e = process env2 depth e.
Proof. intros. unfold process. apply process_body_same. apply callbacks_same. Qed.
End Run.
