(** Reading the texts that show sizes. *)
From Coq Require Import QArith Qabs Lia Lqa Floats.SpecFloat.
From Verif Require Import GoStr GoFmt Num Style Class Instr Engine Layout Grid Table Lines Proc TableView TableThms TableDump GoStrFacts PageSpec PageFacts GridTextSpec GridTextFacts DimsTextSpec.
Local Open Scope Z_scope.

Lemma round_even_near : forall n d, 0 < d -> 0 <= n -> 0 <= round_even n d /\ - d <= 2 * (n - d * round_even n d) <= d.
Proof.
  intros n d Hd Hn. assert (E := Z.div_mod n d ltac:(lia)). assert (M := Z.mod_pos_bound n d Hd). assert (Q := Z.div_pos n d Hn Hd). unfold round_even. set (q := n / d) in *. set (r := n mod d) in *.
  destruct (Z.compare_spec (2 * r) d) as [K|K|K]; [destruct (Z.even q)| |]; nia.
Qed.
(** The text of a number of tenths. *)
Definition show (neg : bool) (t : Z) : bytes := (if neg then $"-" else []) ++ itoa (t / 10) ++ $"." ++ itoa (t mod 10).
Lemma itoa_nonneg : forall z, 0 <= z -> itoa z = itoa_N (Z.to_N z).
Proof. intros [|p|p] H; [reflexivity|reflexivity|lia]. Qed.
Lemma unsigned_show : forall t, 0 <= t -> unsigned1 (itoa (t / 10) ++ $"." ++ itoa (t mod 10)) = Some (t # 10)%Q.
Proof.
  intros t Ht. assert (M := Z.mod_pos_bound t 10 ltac:(lia)). assert (Q := Z.div_pos t 10 Ht ltac:(lia)). unfold unsigned1. change ($".") with ["."%char]. cbn [app]. rewrite parts_split.
  rewrite split_byte_app by (apply itoa_chars; [reflexivity|discriminate]). rewrite split_byte_nosep_id by (apply itoa_chars; [reflexivity|discriminate]).
  rewrite (itoa_nonneg _ Q). destruct (itoa_N_decimal (Z.to_N (t / 10))) as (A & B & _). destruct (itoa_N (Z.to_N (t / 10))) as [|c s]; [congruence|].
  assert (D : exists d, itoa (t mod 10) = [d] /\ value_from 0 [d] = Some (Z.to_N (t mod 10))).
  { assert (K : t mod 10 = 0 \/ t mod 10 = 1 \/ t mod 10 = 2 \/ t mod 10 = 3 \/ t mod 10 = 4 \/ t mod 10 = 5 \/ t mod 10 = 6 \/ t mod 10 = 7 \/ t mod 10 = 8 \/ t mod 10 = 9) by lia.
    repeat (destruct K as [K|K]; [rewrite K; eexists; split; reflexivity|]). rewrite K. eexists; split; reflexivity. }
  destruct D as (d & -> & D). rewrite B, D. assert (E := Z.div_mod t 10 ltac:(lia)). f_equal. f_equal. rewrite N2Z.inj_add, N2Z.inj_mul, !Z2N.id by lia. lia.
Qed.
Lemma decimal_show : forall neg t, 0 <= t -> decimal1 (show neg t) = Some (if neg then - (t # 10) else t # 10)%Q.
Proof.
  intros neg t Ht. unfold show. destruct neg.
  - cbn [app]. unfold decimal1. change ($"-") with ["-"%char]. cbn [app]. rewrite Ascii.eqb_refl, (unsigned_show t Ht). reflexivity.
  - cbn [app]. assert (U := unsigned_show t Ht). unfold decimal1. assert (Q := Z.div_pos t 10 Ht ltac:(lia)). rewrite (itoa_nonneg _ Q) in *. destruct (itoa_N_decimal (Z.to_N (t / 10))) as (A & B & _).
    destruct (itoa_N (Z.to_N (t / 10))) as [|c s]; [congruence|]. cbn [app] in *. destruct (Ascii.eqb_spec c "-") as [->|N]; [discriminate B|]. exact U.
Qed.
Lemma fixed1_shows : forall x, finite x = true -> exists q, decimal1 (fixed1 x) = Some q /\ nearest q x.
Proof.
  intros [s|s| |s m e] H; try discriminate H.
  - eexists. split; [exact (decimal_show s 0 ltac:(lia))|]. destruct s; unfold nearest, Qle; cbn; lia.
  - set (t := if 0 <=? e then Zpos m * 2 ^ e * 10 else round_even (Zpos m * 10) (2 ^ (- e))).
    change (fixed1 (S754_finite s m e)) with (show s t).
    assert (G : 0 <= t /\ (Qabs ((t # 10) - qval (S754_finite false m e)) <= 1 # 20)%Q).
    { unfold t, qval. destruct (Z.leb_spec 0 e) as [L|L].
      - assert (0 <= 2 ^ e) by (apply Z.pow_nonneg; lia). split; [nia|]. assert (K : ((Zpos m * 2 ^ e * 10 # 10) - inject_Z (Zpos m * 2 ^ e) == 0)%Q) by (unfold Qeq; cbn; lia).
        destruct e as [|p|p]; [| |lia]; setoid_rewrite K; unfold Qle; cbn; lia.
      - destruct e as [|p|p]; try lia. change (- Zneg p) with (Zpos p). change (2 ^ Zpos p) with (Z.pow_pos 2 p). rewrite <- Pos2Z.inj_pow_pos.
        destruct (round_even_near (Zpos m * 10) (Zpos (2 ^ p)) ltac:(lia) ltac:(lia)) as [P1 P2]. split; [exact P1|]. set (r := round_even (Zpos m * 10) (Zpos (2 ^ p))) in *.
        apply Qabs_Qle_condition. unfold Qle. cbn [Qnum Qden Qplus Qminus Qopp]. set (D := (2 ^ p)%positive) in *. clearbody r D. rewrite !Pos2Z.inj_mul. split; nia. }
    destruct G as [G1 G2]. exists (if s then - (t # 10) else t # 10)%Q. split; [exact (decimal_show s t G1)|]. unfold nearest.
    destruct s; [|exact G2]. assert (N : (qval (S754_finite true m e) == - qval (S754_finite false m e))%Q).
    { unfold qval. destruct e; unfold Qeq; cbn [Qnum Qden Qopp inject_Z]; try lia. }
    rewrite N. setoid_replace (- (t # 10) - - qval (S754_finite false m e))%Q with (- ((t # 10) - qval (S754_finite false m e)))%Q by ring. rewrite Qabs_opp. exact G2.
Qed.
Lemma fixed1_chars : forall x s, In s [","%char; lf; ":"%char] -> ~ In s (fixed1 x).
Proof.
  intros x s Hs. assert (D : digit_value s = None /\ s <> "-"%char) by (destruct Hs as [<-|[<-|[<-|[]]]]; split; try reflexivity; discriminate). destruct D as [D1 D2].
  assert (B : forall z, ~ In s (itoa z)) by (intro; apply itoa_chars; assumption).
  assert (L : forall l, existsb (Ascii.eqb s) l = false -> ~ In s l).
  { intros l E G. apply not_true_iff_false in E. apply E, existsb_exists. exists s. split; [exact G|apply Ascii.eqb_refl]. }
  assert (Sh : forall neg t, ~ In s (show neg t)).
  { intros neg t G. unfold show in G. apply in_app_or in G as [G|G]; [destruct neg; [|destruct G]; revert G; apply L; destruct Hs as [<-|[<-|[<-|[]]]]; reflexivity|].
    apply in_app_or in G as [G|G]; [exact (B _ G)|]. apply in_app_or in G as [G|G]; [revert G; apply L; destruct Hs as [<-|[<-|[<-|[]]]]; reflexivity|exact (B _ G)]. }
  destruct x as [n|n| |n m e]; [exact (Sh n 0)|destruct n; apply L; destruct Hs as [<-|[<-|[<-|[]]]]; reflexivity|apply L; destruct Hs as [<-|[<-|[<-|[]]]]; reflexivity|apply Sh].
Qed.

Section Read.
Context (h : heap NumF64).
Definition sized_cell (c : cid) : Prop := finite (c_width (deref h c)) = true /\ finite (c_height (deref h c)) = true /\ finite (c_minHeight (deref h c)) = true.
Definition shows_dims (c : cid) (d : dims) : Prop :=
  let '(i, j, (w, v, u)) := d in i = c_rowIdx (deref h c) /\ j = c_cellIdx (deref h c) /\ nearest w (c_width (deref h c)) /\ nearest v (c_height (deref h c)) /\ nearest u (c_minHeight (deref h c)).
Lemma read_dims_cell : forall c, sized_cell c -> exists d, read_dims_entry (dumpCellDims h c) = Some d /\ shows_dims c d.
Proof.
  intros c (F1 & F2 & F3). destruct (fixed1_shows _ F1) as (w & W1 & W2), (fixed1_shows _ F2) as (v & V1 & V2), (fixed1_shows _ F3) as (u & U1 & U2).
  exists (c_rowIdx (deref h c), c_cellIdx (deref h c), (w, v, u)). split; [|cbn; auto]. unfold dumpCellDims. set (x := deref h c) in *.
  match goal with |- read_dims_entry ?s = _ => replace s with ("["%char :: (itoa_nat (c_rowIdx x) ++ ":"%char :: itoa_nat (c_cellIdx x) ++ ":"%char :: (["w"%char; "="%char] ++ fixed1 (c_width x)) ++ ":"%char :: (["h"%char; "="%char] ++ fixed1 (c_height x)) ++ ":"%char :: (["m"%char; "h"%char; "="%char] ++ fixed1 (c_minHeight x))) ++ ["]"%char]) end.
  2: { cbn [app]. repeat (rewrite <- app_assoc; cbn [app]). reflexivity. }
  unfold read_dims_entry. rewrite last_one. change (beqb ["]"%char] ($"]")) with true. cbv iota. rewrite removelast_last, parts_split.
  assert (N : forall k y, existsb (Ascii.eqb ":") k = false -> ~ In ":"%char (k ++ fixed1 y)).
  { intros k y E G. apply in_app_or in G as [G|G]; [apply not_true_iff_false in E; apply E, existsb_exists; exists ":"%char; split; [exact G|reflexivity]|]. revert G. apply fixed1_chars. right; right; left; reflexivity. }
  rewrite !split_byte_app by (first [apply N; reflexivity|apply not_digit; [apply itoa_nat_digits|reflexivity]]). rewrite split_byte_nosep_id by (apply N; reflexivity).
  cbn [app]. rewrite !number_itoa_nat, W1, V1, U1. reflexivity.
Qed.
Lemma dims_chars : forall c s, In s [","%char; lf] -> ~ In s (dumpCellDims h c).
Proof.
  intros c s Hs. assert (D : digit_value s = None /\ s <> "-"%char) by (destruct Hs as [<-|[<-|[]]]; split; try reflexivity; discriminate). destruct D as [D1 D2].
  assert (A : forall n, ~ In s (itoa_nat n)) by (intro; apply not_digit; [apply itoa_nat_digits|exact D1]). assert (B : forall x, ~ In s (fixed1 x)) by (intro; apply fixed1_chars; cbn in Hs |- *; tauto).
  assert (L : forall l, existsb (Ascii.eqb s) l = false -> ~ In s l).
  { intros l E G. apply not_true_iff_false in E. apply E, existsb_exists. exists s. split; [exact G|apply Ascii.eqb_refl]. }
  unfold dumpCellDims. intro G; repeat (apply in_app_or in G as [G|G]); revert G; try apply A; try apply B; apply L; destruct Hs as [<-|[<-|[]]]; reflexivity.
Qed.
Lemma all_some_rel : forall A B (f : A -> option B) (P : A -> B -> Prop) l, (forall a, In a l -> exists b, f a = Some b /\ P a b) -> exists bs, all_some (map f l) = Some bs /\ Forall2 P l bs.
Proof.
  intros A B f P. induction l as [|a l IH]; intros H; [exists []; split; [reflexivity|constructor]|]. destruct (H a (or_introl eq_refl)) as (b & E & Hb).
  destruct IH as (bs & E' & Hbs); [intros x Hx; apply H; right; exact Hx|]. exists (b :: bs). cbn [map all_some]. rewrite E, E'. split; [reflexivity|constructor; assumption].
Qed.
Lemma read_dims_cells : forall row, (forall c, In c (r_cells row) -> sized_cell c) -> exists ds, read_dims_row (dumpRowDims h row) = Some ds /\ Forall2 shows_dims (r_cells row) ds.
Proof.
  intros row Hr. unfold dumpRowDims, read_dims_row. destruct (r_cells row) as [|c l]; [exists []; split; [reflexivity|constructor]|]. cbn [map]. rewrite join_comma, parts_split, split_byte_of_join.
  - destruct (all_some_rel _ _ (fun c => read_dims_entry (dumpCellDims h c)) shows_dims (c :: l)) as (ds & E & P); [intros x Hx; exact (read_dims_cell x (Hr x Hx))|].
    exists ds. split; [|exact P]. destruct (dumpCellDims h c) as [|a s] eqn:Ed; [exfalso; unfold dumpCellDims in Ed; discriminate Ed|].
    cbn [map] in E. rewrite Ed in E. rewrite !map_map. destruct l; exact E.
  - discriminate.
  - constructor; [apply dims_chars; left; reflexivity|]. apply Forall_forall. intros w Hw. apply in_map_iff in Hw as (q & <- & Hq). apply in_map_iff in Hq as (c' & <- & _).
    intros [G|G]; [discriminate G|]. revert G. apply dims_chars. left. reflexivity.
Qed.
Lemma dims_row_chars : forall row, ~ In lf (dumpRowDims h row).
Proof.
  intros row. unfold dumpRowDims. assert (J : forall l : list bytes, (forall w, In w l -> ~ In lf w) -> ~ In lf (str_join ($", ") l)).
  { induction l as [|w l IH]; intros Hl G; [destruct G|]. destruct l as [|w' l]; [exact (Hl w (or_introl eq_refl) G)|].
    change (In lf (w ++ $", " ++ str_join ($", ") (w' :: l))) in G. apply in_app_or in G as [G|G]; [exact (Hl w (or_introl eq_refl) G)|]. apply in_app_or in G as [G|G]; [destruct G as [G|[G|[]]]; discriminate G|].
    revert G. apply IH. intros x Hx. apply Hl. right. exact Hx. }
  apply J. intros w Hw. apply in_map_iff in Hw as (c & <- & _). apply dims_chars. right. left. reflexivity.
Qed.
Lemma read_dims_table : forall t, t_rows t <> [] -> (forall c, In c (flat_map r_cells (t_rows t)) -> sized_cell c) ->
  exists g, read_dims (dumpTableDims h t) = Some g /\ Forall2 (fun row ds => Forall2 shows_dims (r_cells row) ds) (t_rows t) g.
Proof.
  intros t Hne Hs. unfold read_dims, dumpTableDims. rewrite parts_split, split_byte_of_join.
  - rewrite map_map. apply all_some_rel. intros row Hr. apply read_dims_cells. intros c Hc. apply Hs. apply in_flat_map. exists row. split; assumption.
  - intro K. apply map_eq_nil in K. contradiction.
  - apply Forall_forall. intros w Hw. apply in_map_iff in Hw as (row & <- & _). apply dims_row_chars.
Qed.
End Read.

Lemma forall2_nth : forall A B (P : A -> B -> Prop) l l', Forall2 P l l' -> forall n a, nth_error l n = Some a -> exists b, nth_error l' n = Some b /\ P a b.
Proof. intros A B P l l' H. induction H as [|a b l l' Hab H IH]; intros [|n] x Hx; try discriminate Hx; [injection Hx as <-; exists b; split; [reflexivity|exact Hab]|exact (IH n x Hx)]. Qed.
Lemma forall2_length : forall A B (P : A -> B -> Prop) l l', Forall2 P l l' -> List.length l = List.length l'.
Proof. intros A B P l l' H. induction H; cbn; congruence. Qed.
(** The sizes of a table read from a document. *)
Lemma dims_text : forall (env : Env NumF64) (eng : Engine NumF64) st xrows (s s' : PS NumF64 eng) h t,
  transformTable env st xrows s = (Some (h, t), s') -> t_rows t <> [] ->
  (forall c, In c (flat_map r_cells (t_rows t)) -> finite (c_width (deref h c)) = true /\ finite (c_height (deref h c)) = true /\ finite (c_minHeight (deref h c)) = true) ->
  exists g, read_dims (dumpTableDims h t) = Some g /\ List.length g = List.length (t_rows t) /\ (forall i ds, nth_error g i = Some ds -> List.length ds = t_columnCount t) /\
  forall i j c, cell_at (t_rows t) i j = Some c -> exists w v u, dims_at g i j = Some (i, j, (w, v, u)) /\
    nearest w (c_width (deref h c)) /\ nearest v (c_height (deref h c)) /\ nearest u (c_minHeight (deref h c)).
Proof.
  intros env eng st xrows s s' h t HT Hne Hs. destruct (rectangle env st xrows s s' h t HT) as [Rl Ri]. destruct (read_dims_table h t Hne Hs) as (g & E & P).
  assert (L := forall2_length _ _ _ _ _ P). exists g. split; [exact E|]. split; [symmetry; exact L|]. split.
  - intros i ds Hi. assert (Hlt : (i < List.length g)%nat) by (apply nth_error_Some; congruence). destruct (nth_error (t_rows t) i) as [row|] eqn:Er; [|apply nth_error_None in Er; lia].
    destruct (forall2_nth _ _ _ _ _ P i row Er) as (b & Hb & Hr). rewrite Hb in Hi. injection Hi as <-. rewrite <- (forall2_length _ _ _ _ _ Hr). specialize (Rl i ltac:(lia)). unfold cells in Rl. rewrite Er in Rl. exact Rl.
  - intros i j c Hc. destruct (Ri _ _ _ Hc) as [I1 I2]. unfold cell_at, cells in Hc. destruct (nth_error (t_rows t) i) as [row|] eqn:Er; [|destruct j; discriminate Hc].
    destruct (forall2_nth _ _ _ _ _ P i row Er) as (b & Hb & Hr). destruct (forall2_nth _ _ _ _ _ Hr j c Hc) as ([[i0 j0] [[w v] u]] & Hd & (D1 & D2 & D3 & D4 & D5)).
    exists w, v, u. unfold dims_at. rewrite Hb, Hd. rewrite D1, D2, I1, I2. auto.
Qed.
Lemma area_text : forall pa : PrintableArea NumF64, finite (pa_x0 pa) = true -> finite (pa_y0 pa) = true -> finite (pa_x1 pa) = true -> finite (pa_y1 pa) = true ->
  exists a b c d qa qb qc qd, area_String pa = $"x0=" ++ a ++ $", y0=" ++ b ++ $", x1=" ++ c ++ $", y1=" ++ d /\
  Forall (fun s => ~ In ","%char s) [a; b; c; d] /\
  decimal1 a = Some qa /\ nearest qa (pa_x0 pa) /\ decimal1 b = Some qb /\ nearest qb (pa_y0 pa) /\
  decimal1 c = Some qc /\ nearest qc (pa_x1 pa) /\ decimal1 d = Some qd /\ nearest qd (pa_y1 pa).
Proof.
  intros pa H1 H2 H3 H4. destruct (fixed1_shows _ H1) as (qa & A1 & A2), (fixed1_shows _ H2) as (qb & B1 & B2), (fixed1_shows _ H3) as (qc & C1 & C2), (fixed1_shows _ H4) as (qd & D1 & D2).
  exists (fixed1 (pa_x0 pa)), (fixed1 (pa_y0 pa)), (fixed1 (pa_x1 pa)), (fixed1 (pa_y1 pa)), qa, qb, qc, qd. split; [reflexivity|].
  split; [repeat constructor; apply fixed1_chars; left; reflexivity|]. auto 10.
Qed.
