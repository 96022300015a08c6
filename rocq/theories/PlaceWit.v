(** Concrete cases for C98, C99 and C100: the reference engine, which breaks pages while printing. *)
From Coq Require Import QArith Lia Lqa.
From Verif Require Import GoStr GoFmt GoStrFacts Num Style Class Instr Engine Layout Lines LinesSpec WriteSpec RefEngine Proc ProcView ProcWit LinesWit PlaceSpec.
Local Open Scope Q_scope.

Definition chars (f : Font NumQ) (t : bytes) : Q := inject_Z (Z.of_nat (List.length t)).
Lemma chars_le : forall f (t t' : bytes), (List.length t <= List.length t')%nat -> chars f t <= chars f t'.
Proof. intros f t t' H. unfold chars. rewrite <- Zle_Qle. lia. Qed.
Lemma trim_length : forall (t : bytes), (List.length (trim is_sp t) <= List.length t)%nat.
Proof.
  assert (L : forall t : bytes, (List.length (trim_left is_sp t) <= List.length t)%nat).
  { induction t as [|c t IH]; cbn [trim_left]; [lia|]. destruct (is_sp c); cbn [List.length] in *; lia. }
  intros t. unfold trim, trim_right. rewrite rev_length. specialize (L (rev (trim_left is_sp t))) as L1. rewrite rev_length in L1. specialize (L t). lia.
Qed.
Lemma chars_regular : forall f, regular chars f.
Proof.
  intros f. constructor.
  - intros t. unfold chars. change 0 with (inject_Z 0). rewrite <- Zle_Qle. lia.
  - intros t. unfold chars. cbn [List.length]. rewrite Nat2Z.inj_succ, <- Z.add_1_r, inject_Z_plus. change (inject_Z 1) with 1. lra.
  - intros t. apply chars_le, trim_length.
Qed.
Lemma ref_printer : forall right, printer RefEngine chars right.
Proof.
  intros right. constructor.
  - reflexivity.
  - intros f e. repeat split; reflexivity.
  - reflexivity.
  - reflexivity.
  - intros t e e' _ _ H. assert (X : forall e0, (fst (@getXY NumQ RefEngine (r_put t e0)) == r_x e0 + chars ref_font t)%Q) by (intros e0; exact (Qred_correct (r_x e0 + chars ref_font t))).
    cbn [Engine.writeText RefEngine] in H. unfold r_write in H.
    assert (K : forall k (Hk : forall e1, fst (@getXY NumQ RefEngine (k e1)) == r_x e + chars ref_font t) p, p = r_add_page k e -> ends p e' -> fst (@getXY NumQ RefEngine e') == r_x e + chars ref_font t).
    { intros k Hk p -> Hp. unfold r_add_page in Hp. destruct (r_page e =? 0)%Z.
      - inversion Hp as [|c0 e0 k0 e1 e2 Hp1]; subst. inversion Hp1; subst. apply Hk.
      - inversion Hp as [|c0 e0 k0 e1 e2 Hp1]; subst. inversion Hp1 as [|c3 e3 k3 e4 e5 Hp2]; subst. inversion Hp2; subst. apply Hk. }
    destruct (negb _ && negb _).
    + refine (K _ _ _ eq_refl H). intros e1. rewrite X. reflexivity.
    + inversion H; subst. apply X.
Qed.
Definition aligned (a : bytes) : Styles NumQ :=
  mkStyles (SFont (@DefaultStyle NumQ)) (SBox (@DefaultStyle NumQ)) (SDim (@DefaultStyle NumQ)) (ColumnWidth (@DefaultStyle NumQ)) (mkAlign a (VAlign (SAlign (@DefaultStyle NumQ)))) (SColor (@DefaultStyle NumQ)) (LineWidth (@DefaultStyle NumQ)).
Definition edges (rs : list (list word)) : list (list (option Q * bytes)) := map (map (fun w => (option_map Qred (w_left w), w_text w))) rs.
Lemma not_aligned : exists row b row' a' b',
  match writeTextFnc (eng:=RefEngine) (fun _ => ret tt) same_style (fun w => [w]) (aligned ($"right")) [ITextBlock ($"aa bb")] (20%Q : NumQ) (aligned ($"right")) ref_state with
  | Ok tt s' => rows chars ref_font None [] (map ev_cmd (ps_trace s')) = [row; []] | _ => False end /\
  row_end chars row = Some b /\ (b < 10 + 20)%Q /\
  match writeTextFnc (eng:=RefEngine) (fun _ => ret tt) same_style (fun w => [w]) (aligned ($"center")) [ITextBlock ($"aa bb")] (20%Q : NumQ) (aligned ($"center")) ref_state with
  | Ok tt s' => rows chars ref_font None [] (map ev_cmd (ps_trace s')) = [row'; []] | _ => False end /\
  row_start row' = Some a' /\ row_end chars row' = Some b' /\ (a' - 10 < 10 + 20 - b')%Q.
Proof. eexists _, _, _, _, _. split; [vm_compute; reflexivity|]. split; [reflexivity|]. split; [reflexivity|]. split; [vm_compute; reflexivity|]. split; [reflexivity|]. split; reflexivity. Qed.
(** A paragraph of 40 points inside a text of 12 points. *)
Definition mixed : list (instr NumQ) := [IParagraph (with_size 40) ($"big"); ITextBlock ($"small"); ILineBreak; ITextBlock ($"next")].
Lemma not_below : exists line rest,
  match writeTextFnc (eng:=RefEngine) (fun _ => ret tt) (e_mut (doc_env [] [] [] [])) (fun w => [w]) (aligned ($"left")) mixed (20%Q : NumQ) (aligned ($"left")) ref_state with
  | Ok tt s' => feeds ref_font [] (map ev_cmd (ps_trace s')) = line :: rest | _ => False end /\
  (1 <= LineSpacing (SDim (aligned ($"left"))))%Q /\ ~ below (PointSize (F:=NumQ)) line.
Proof.
  eexists _, _. split; [vm_compute; reflexivity|]. split; [discriminate|]. intros H. specialize (H _ (or_introl eq_refl)). vm_compute in H. apply H. reflexivity.
Qed.
