(** Reading the text that shows the spans of a table. *)
From Coq Require Import Lia.
From Verif Require Import GoStr GoFmt Num Style Class Instr Layout Table TableView TableDump GoStrFacts PageSpec PageFacts GridTextSpec.

Lemma parts_split : forall sep s, parts sep s = split_byte sep s.
Proof. intros sep. induction s as [|c s IH]; [reflexivity|]. cbn [parts fold_right split_byte]. change (fold_right _ _ s) with (parts sep s). rewrite IH. reflexivity. Qed.
Lemma value_digits : forall s acc n, value_from acc s = Some n -> forall c, In c s -> exists d, digit_value c = Some d.
Proof.
  induction s as [|c s IH]; intros acc n H x Hx; [destruct Hx|]. cbn in H. destruct (digit_value c) as [d|] eqn:E; [|discriminate H].
  destruct Hx as [<-|Hx]; [exists d; exact E|exact (IH _ _ H x Hx)].
Qed.
Definition digits_only (s : bytes) : Prop := forall c, In c s -> exists d, digit_value c = Some d.
Lemma itoa_N_digits : forall n, digits_only (itoa_N n).
Proof. intros n. destruct (itoa_N_decimal n) as (_ & H & _). exact (value_digits _ _ _ H). Qed.
Lemma not_digit : forall s c, digits_only s -> digit_value c = None -> ~ In c s.
Proof. intros s c H E Hc. destruct (H c Hc) as [d G]. congruence. Qed.
Lemma itoa_chars : forall z c, digit_value c = None -> c <> "-"%char -> ~ In c (itoa z).
Proof.
  intros z c E N. destruct z as [|p|p]; [apply not_digit; [exact (itoa_N_digits 0)|exact E]|apply not_digit; [exact (itoa_N_digits (Npos p))|exact E]|].
  intros [H|H]; [congruence|]. revert H. apply not_digit; [exact (itoa_N_digits (Npos p))|exact E].
Qed.
Lemma itoa_nat_digits : forall n, digits_only (itoa_nat n).
Proof. intros n. unfold itoa_nat. destruct (Z.of_nat n) eqn:E; [exact (itoa_N_digits 0)|exact (itoa_N_digits (Npos p))|lia]. Qed.
Lemma number_N : forall n, number (itoa_N n) = Some (Z.of_N n).
Proof.
  intros n. destruct (itoa_N_decimal n) as (A & B & _). destruct (itoa_N n) as [|c s] eqn:E; [congruence|]. unfold number.
  destruct (Ascii.eqb_spec c "-") as [->|K]; [discriminate B|]. rewrite B. reflexivity.
Qed.
Lemma number_itoa : forall z, number (itoa z) = Some z.
Proof.
  intros [|p|p]; [exact (number_N 0)|exact (number_N (Npos p))|]. cbn [itoa]. destruct (itoa_N_decimal (Npos p)) as (A & B & _). unfold number. rewrite Ascii.eqb_refl.
  destruct (itoa_N (Npos p)) as [|c s]; [congruence|]. rewrite B. reflexivity.
Qed.
Lemma number_itoa_nat : forall n, number_nat (itoa_nat n) = Some n.
Proof. intros n. unfold number_nat, itoa_nat. rewrite number_itoa. destruct (Z.ltb_spec (Z.of_nat n) 0); [lia|]. rewrite Nat2Z.id. reflexivity. Qed.

Section Read.
Context {F : Num} (h : heap F).
(** What the text of a cell says. *)
Definition mark_of (c : cid) : mark :=
  let x := deref h c in
  if c_zero x then Padding else match c_spannedBy x with
  | Some o => By (c_rowIdx (deref h o)) (c_cellIdx (deref h o))
  | None => match c_spansCols x, c_spansRows x with
    | _ :: _, _ :: _ => Block (c_colSpan x) (c_rowSpan x)
    | _ :: _, [] => Wide (c_colSpan x) (c_rowSpan x)
    | [], _ :: _ => Tall (c_colSpan x) (c_rowSpan x)
    | [], [] => Plain end
  end.
Definition entry_of (c : cid) : entry := (c_rowIdx (deref h c), c_cellIdx (deref h c), mark_of c).

Lemma last_one : forall (s : bytes) c, last (map (fun c => [c]) (s ++ [c])) [] = [c].
Proof. intros s c. rewrite map_app. apply last_last. Qed.
Lemma read_short : forall i j k m, (k = $"zero" /\ m = Padding \/ k = $"regl" /\ m = Plain) ->
  read_entry ($"[" ++ itoa_nat i ++ $":" ++ itoa_nat j ++ $"-" ++ k ++ $"-cell]") = Some (i, j, m).
Proof.
  intros i j k m H. replace ($"[" ++ itoa_nat i ++ $":" ++ itoa_nat j ++ $"-" ++ k ++ $"-cell]") with ("["%char :: (itoa_nat i ++ ":"%char :: itoa_nat j ++ "-"%char :: k ++ "-"%char :: $"cell") ++ ["]"%char]).
  2: { cbn [app]. repeat (rewrite <- app_assoc; cbn [app]). reflexivity. }
  unfold read_entry. rewrite last_one. change (beqb ["]"%char] ($"]")) with true. cbv iota. rewrite removelast_last, parts_split.
  rewrite split_byte_app by (apply not_digit; [apply itoa_nat_digits|reflexivity]).
  assert (Kc : forall c, In c k -> In c ($"zeroregl")) by (destruct H as [[-> _]|[-> _]]; intros c Hc; cbn in Hc |- *; tauto).
  rewrite split_byte_nosep_id.
  2: { intro G. apply in_app_or in G as [G|[G|G]]; [revert G; apply not_digit; [apply itoa_nat_digits|reflexivity]|discriminate G|]. apply in_app_or in G as [G|G]; [|cbn in G; repeat (destruct G as [G|G]; [discriminate G|]); exact G].
       apply Kc in G. cbn in G. repeat (destruct G as [G|G]; [discriminate G|]). exact G. }
  rewrite parts_split, split_byte_app by (apply not_digit; [apply itoa_nat_digits|reflexivity]). rewrite split_byte_app.
  2: { intro G. apply Kc in G. cbn in G. repeat (destruct G as [G|G]; [discriminate G|]). exact G. }
  change (split_byte "-" ($"cell")) with [$"cell"]. rewrite !number_itoa_nat. destruct H as [[-> ->]|[-> ->]]; reflexivity.
Qed.
Lemma read_long : forall i j k a b m, In k [$"byspn"; $"spans"; $"colsp"; $"rowsp"] ->
  (if beqb k ($"byspn") then By (Z.to_nat a) (Z.to_nat b) else if beqb k ($"spans") then Block a b else if beqb k ($"colsp") then Wide a b else Tall a b) = m ->
  read_entry ($"[" ++ itoa_nat i ++ $":" ++ itoa_nat j ++ $"-" ++ k ++ $":" ++ itoa a ++ $":" ++ itoa b ++ $"]") = Some (i, j, m).
Proof.
  intros i j k a b m Hk <-. replace ($"[" ++ itoa_nat i ++ $":" ++ itoa_nat j ++ $"-" ++ k ++ $":" ++ itoa a ++ $":" ++ itoa b ++ $"]")
    with ("["%char :: (itoa_nat i ++ ":"%char :: (itoa_nat j ++ "-"%char :: k) ++ ":"%char :: itoa a ++ ":"%char :: itoa b) ++ ["]"%char]).
  2: { cbn [app]. repeat (rewrite <- app_assoc; cbn [app]). reflexivity. }
  unfold read_entry. rewrite last_one. change (beqb ["]"%char] ($"]")) with true. cbv iota. rewrite removelast_last, parts_split.
  assert (Kc : forall c, In c k -> In c ($"byspncolsprowspans")) by (destruct Hk as [<-|[<-|[<-|[<-|[]]]]]; intros c Hc; cbn in Hc |- *; tauto).
  rewrite split_byte_app by (apply not_digit; [apply itoa_nat_digits|reflexivity]). rewrite split_byte_app.
  2: { intro G. apply in_app_or in G as [G|[G|G]]; [revert G; apply not_digit; [apply itoa_nat_digits|reflexivity]|discriminate G|].
       apply Kc in G. cbn in G. repeat (destruct G as [G|G]; [discriminate G|]). exact G. }
  rewrite split_byte_app by (apply itoa_chars; [reflexivity|discriminate]). rewrite split_byte_nosep_id by (apply itoa_chars; [reflexivity|discriminate]).
  rewrite parts_split, split_byte_app by (apply not_digit; [apply itoa_nat_digits|reflexivity]). rewrite split_byte_nosep_id.
  2: { intro G. apply Kc in G. cbn in G. repeat (destruct G as [G|G]; [discriminate G|]). exact G. }
  rewrite !number_itoa_nat, !number_itoa. destruct Hk as [<-|[<-|[<-|[<-|[]]]]]; reflexivity.
Qed.
Lemma read_cell : forall c, read_entry (dumpCellSpans h c) = Some (entry_of c).
Proof.
  intros c. unfold dumpCellSpans, entry_of, mark_of. set (x := deref h c). destruct (c_zero x).
  - rewrite <- !app_assoc. apply (read_short _ _ ($"zero")). left. split; reflexivity.
  - destruct (c_spannedBy x) as [o|].
    + rewrite <- !app_assoc. apply (read_long _ _ ($"byspn")); [left; reflexivity|]. change (beqb ($"byspn") ($"byspn")) with true. cbv iota. rewrite !Nat2Z.id. reflexivity.
    + destruct (c_spansCols x), (c_spansRows x); rewrite <- !app_assoc.
      * apply (read_short _ _ ($"regl")). right. split; reflexivity.
      * apply (read_long _ _ ($"rowsp")); [cbn; auto|reflexivity].
      * apply (read_long _ _ ($"colsp")); [cbn; auto|reflexivity].
      * apply (read_long _ _ ($"spans")); [cbn; auto|reflexivity].
Qed.
(** No commas or line feeds in the text of a cell. *)
Lemma cell_chars : forall c s, In s [","%char; lf] -> ~ In s (dumpCellSpans h c).
Proof.
  intros c s Hs. assert (D : digit_value s = None /\ s <> "-"%char) by (destruct Hs as [<-|[<-|[]]]; split; try reflexivity; discriminate). destruct D as [D1 D2].
  assert (A : forall n, ~ In s (itoa_nat n)) by (intro; apply not_digit; [apply itoa_nat_digits|exact D1]). assert (B : forall z, ~ In s (itoa z)) by (intro; apply itoa_chars; assumption).
  assert (L : forall l, existsb (Ascii.eqb s) l = false -> ~ In s l).
  { intros l E G. apply not_true_iff_false in E. apply E, existsb_exists. exists s. split; [exact G|apply Ascii.eqb_refl]. }
  unfold dumpCellSpans. set (x := deref h c). destruct (c_zero x); [|destruct (c_spannedBy x); [|destruct (c_spansCols x), (c_spansRows x)]];
    intro G; repeat (apply in_app_or in G as [G|G]); revert G; try apply A; try apply B; apply L; destruct Hs as [<-|[<-|[]]]; reflexivity.
Qed.
Lemma cell_nonempty : forall c, dumpCellSpans h c <> [].
Proof. intros c H. assert (G := read_cell c). rewrite H in G. discriminate G. Qed.

Lemma all_some_map : forall A B (f : A -> option B) g l, (forall a, In a l -> f a = Some (g a)) -> all_some (map f l) = Some (map g l).
Proof. intros A B f g. induction l as [|a l IH]; intros H; [reflexivity|]. cbn [map all_some]. rewrite (H a (or_introl eq_refl)), IH by (intros x Hx; apply H; right; exact Hx). reflexivity. Qed.
Lemma join_comma : forall p l, str_join ($", ") (p :: l) = str_join [","%char] (p :: map (fun q => " "%char :: q) l).
Proof. intros p l. revert p. induction l as [|q l IH]; intros p; [reflexivity|]. cbn [str_join map] in *. specialize (IH q). destruct l; cbn [map str_join app] in *; [reflexivity|]. rewrite IH. reflexivity. Qed.
Lemma read_cells : forall row, read_row (dumpRowSpans h row) = Some (map entry_of (r_cells row)).
Proof.
  intros row. unfold dumpRowSpans, read_row. destruct (r_cells row) as [|c l]; [reflexivity|]. cbn [map]. rewrite join_comma, parts_split, split_byte_of_join.
  - cbn [map]. destruct (dumpCellSpans h c) as [|a s] eqn:E; [exfalso; exact (cell_nonempty c E)|]. rewrite <- E.
    assert (G : all_some (read_entry (dumpCellSpans h c) :: map (fun q => match q with " "%char :: q' => read_entry q' | _ => None end) (map (fun q => " "%char :: q) (map (dumpCellSpans h) l))) = Some (entry_of c :: map entry_of l)).
    { cbn [all_some]. rewrite read_cell, !map_map. rewrite (all_some_map _ _ (fun c => read_entry (dumpCellSpans h c)) entry_of) by (intros; apply read_cell). reflexivity. }
    rewrite E in *. destruct (map _ (map _ l)); exact G.
  - discriminate.
  - constructor; [apply cell_chars; left; reflexivity|]. apply Forall_forall. intros w Hw. apply in_map_iff in Hw as (q & <- & Hq). apply in_map_iff in Hq as (c' & <- & _).
    intros [G|G]; [discriminate G|]. revert G. apply cell_chars. left. reflexivity.
Qed.
Lemma row_chars : forall row, ~ In lf (dumpRowSpans h row).
Proof.
  intros row. unfold dumpRowSpans. assert (J : forall l : list bytes, (forall w, In w l -> ~ In lf w) -> ~ In lf (str_join ($", ") l)).
  { induction l as [|w l IH]; intros Hl G; [destruct G|]. destruct l as [|w' l]; [exact (Hl w (or_introl eq_refl) G)|].
    change (In lf (w ++ $", " ++ str_join ($", ") (w' :: l))) in G. apply in_app_or in G as [G|G]; [exact (Hl w (or_introl eq_refl) G)|]. apply in_app_or in G as [G|G]; [destruct G as [G|[G|[]]]; discriminate G|].
    revert G. apply IH. intros x Hx. apply Hl. right. exact Hx. }
  apply J. intros w Hw. apply in_map_iff in Hw as (c & <- & _). apply cell_chars. right. left. reflexivity.
Qed.
Lemma read_table : forall t, t_rows t <> [] -> read_grid (dumpTableSpans h t) = Some (map (fun row => map entry_of (r_cells row)) (t_rows t)).
Proof.
  intros t Hne. unfold read_grid, dumpTableSpans. rewrite parts_split, split_byte_of_join.
  - rewrite map_map. apply all_some_map. intros row _. apply read_cells.
  - intro K. apply map_eq_nil in K. contradiction.
  - apply Forall_forall. intros w Hw. apply in_map_iff in Hw as (row & <- & _). apply row_chars.
Qed.
End Read.
