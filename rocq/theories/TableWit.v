(** Concrete tables that refute properties. *)
From Coq Require Import QArith Lia Lqa.
From Verif Require Import GoStr Num Style Class Instr Engine Layout Grid Table Lines Proc RefEngine ProcView TableView TableSpec.
Local Open Scope nat_scope.

Lemma some_table (r : option (heap NumQ * table NumQ) * PS NumQ RefEngine) (P : heap NumQ -> table NumQ -> Prop) :
  match r with (Some (h, t), _) => P h t | _ => False end -> exists h t s', r = (Some (h, t), s') /\ P h t.
Proof. destruct r as [[[h t]|] s']; [|contradiction]. intro H. exists h, t, s'. split; [reflexivity|exact H]. Qed.

Definition overlap (h : heap NumQ) (t : table NumQ) : Prop :=
  exists c c' i j, c <> c' /\ In c (flat_map r_cells (t_rows t)) /\ In c' (flat_map r_cells (t_rows t)) /\
    authored h c = true /\ authored h c' = true /\ covers h c i j /\ covers h c' i j.

Definition overlap_at (c c' i j : nat) (h : heap NumQ) (t : table NumQ) : Prop :=
  In c (flat_map r_cells (t_rows t)) /\ In c' (flat_map r_cells (t_rows t)) /\
    authored h c = true /\ authored h c' = true /\ covers h c i j /\ covers h c' i j.
Lemma overlap_from (r : option (heap NumQ * table NumQ) * PS NumQ RefEngine) c c' i j : c <> c' -> match r with (Some (h, t), _) => overlap_at c c' i j h t | _ => False end ->
  exists h t s', r = (Some (h, t), s') /\ overlap h t.
Proof.
  intros Hne H. destruct (some_table r (overlap_at c c' i j) H) as (h & t & s' & E & Ho). exists h, t, s'. split; [exact E|].
  exists c, c', i, j. split; [exact Hne|exact Ho].
Qed.
Lemma overlap_block : exists h t s', ref_table [xr [xcs 2 2 ($"a"); xc ($"b")]; xr [xc ($"c"); xc ($"d")]] = (Some (h, t), s') /\ overlap h t.
Proof.
  apply (overlap_from _ 0 2 1 1); [discriminate|]. vm_compute. repeat (split; [auto 12|]). repeat split; lia.
Qed.
Lemma overlap_staggered : exists h t s', ref_table [xr [xc ($"a"); xcs 1 3 ($"b")]; xr [xcs 1 2 ($"c")]; xr [xc ($"d")]] = (Some (h, t), s') /\ overlap h t.
Proof.
  apply (overlap_from _ 1 3 2 1); [discriminate|]. vm_compute. repeat (split; [auto 12|]). repeat split; lia.
Qed.
Lemma negative_width : exists h t s' c,
  ref_table [xr [XCell (with_column_width 100) 1 1 []; xc ($"a")]] = (Some (h, t), s') /\
  In c (flat_map r_cells (t_rows t)) /\ (c_width (deref h c) < 0)%Q.
Proof.
  destruct (some_table (ref_table [xr [XCell (with_column_width 100) 1 1 []; xc ($"a")]])
    (fun h t => In 1 (flat_map r_cells (t_rows t)) /\ (c_width (deref h 1%nat) < 0)%Q)) as (h & t & s' & H).
  - vm_compute. split; [auto|reflexivity].
  - exists h, t, s', 1. exact H.
Qed.
Lemma own_height_overflow : exists h t s' c,
  ref_table [xr [XCell (with_height_style 5) 1 1 [ITextBlock ($"a")]]] = (Some (h, t), s') /\
  In c (flat_map r_cells (t_rows t)) /\ authored h c = true /\
  (snd (cell_dim h c) <
    fst (textHeightFnc (eng:=RefEngine) (fun _ s => s) (fun w => [w]) (c_sty (deref h c)) (c_iss (deref h c)) (text_room h c) (c_sty (deref h c)) ref_state))%Q.
Proof.
  destruct (some_table (ref_table [xr [XCell (with_height_style 5) 1 1 [ITextBlock ($"a")]]])
    (fun h t => In 0 (flat_map r_cells (t_rows t)) /\ authored h 0 = true /\
    (snd (cell_dim h 0%nat) <
    fst (textHeightFnc (eng:=RefEngine) (fun _ s => s) (fun w => [w]) (c_sty (deref h 0%nat)) (c_iss (deref h 0%nat)) (text_room h 0%nat) (c_sty (deref h 0%nat)) ref_state))%Q)) as (h & t & s' & H).
  - vm_compute. split; [auto|]. split; reflexivity.
  - exists h, t, s', 0. exact H.
Qed.
