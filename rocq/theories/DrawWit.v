(** Concrete documents for the properties of drawing tables. *)
From Coq Require Import QArith Lia Lqa.
From Verif Require Import GoStr Num Style Class Instr Engine Layout Grid Table Lines Proc RefEngine ProcView TableView DrawSpec ImageFacts SizeThms TableWit ProcFrame.
Local Open Scope nat_scope.

Lemma tallest_max : forall (h : heap NumQ) (rows : list (trow NumQ)) i,
  (forall c, In c (cells rows i) -> (snd (cell_dim h c) <= tallest h rows i)%Q) /\ (0 <= tallest h rows i)%Q /\
  (tallest h rows i = @zero NumQ \/ exists c, In c (cells rows i) /\ tallest h rows i = snd (cell_dim h c)).
Proof.
  intros h rows i. assert (G := row_min_spec (fun c => snd (cell_dim h c)) (cells rows i) (@zero NumQ)). cbv zeta in G.
  destruct G as (G1 & G2 & G3). split; [exact G2|]. split; [exact G1|exact G3].
Qed.

(** The words written by a run, and the page breaks. *)
Definition outline (r : res RefEngine (option bytes)) : list (option bytes) :=
  flat_map (fun c => match c with WriteText s => [Some s] | AddPage => [None] | _ => [] end) (flat (trace_of r)).
Definition rows3 : list (xrow NumQ) := [tall_row 50 ($"h"); tall_row 20 ($"a"); tall_row 50 ($"b")].

Definition off_page (c : cmd NumQ) : bool :=
  match c with Simple (FillRect x y w v) => Qle_bool v 80 && negb (Qle_bool (y + v)%Q 90) | _ => false end.
Lemma row_off_page : exists body s x y w v,
  ref_doc [] [] body = Ok None s /\ In (Simple (FillRect x y w v)) (flat (ps_trace s)) /\
  (let '(_, top, _, bottom) := @printableArea NumQ RefEngine (ps_eng s) in v <= bottom - top /\ bottom < y + v)%Q.
Proof.
  destruct (ok_none (ref_doc [] [] [ITable (XTable no_style 1 rows3)]) (fun s => existsb off_page (flat (ps_trace s)) = true)) as (s & H1 & H2); [vm_compute; reflexivity|].
  apply existsb_exists in H2 as (c & Hc & Ho). destruct c as [[]| | |]; try discriminate Ho. cbn in Ho. apply andb_prop in Ho as [O1 O2].
  eexists _, s, _, _, _, _. split; [exact H1|]. split; [exact Hc|]. cbn. apply Qle_bool_iff in O1. apply negb_true_iff in O2.
  split; [exact O1|]. apply Qnot_le_lt. intro K. apply Qle_bool_iff in K. rewrite K in O2. discriminate O2.
Qed.

Definition boxed_row : xrow NumQ := XRow no_style [XCell no_style 1 1 [IBox (with_height_style 30) [ITextBlock ($"b")]]].
Definition ref_render (xrows : list (xrow NumQ)) (s : PS NumQ RefEngine) : res RefEngine unit :=
  renderTable (doc_env [] [] [] []) (callbacks (doc_env [] [] [] []) 3) (XTable no_style 0 xrows) s.
Lemma ok_unit {eng : Engine NumQ} (r : res eng unit) (P : PS NumQ eng -> Prop) :
  match r with Ok tt s => P s | _ => False end -> exists s, r = Ok tt s /\ P s.
Proof. destruct r as [[] s| |]; try contradiction. intro H. exists s. split; [reflexivity|exact H]. Qed.
Lemma some_table_state (r : option (heap NumQ * table NumQ) * PS NumQ RefEngine) (P : heap NumQ -> table NumQ -> PS NumQ RefEngine -> Prop) :
  match r with (Some (h, t), s') => P h t s' | _ => False end -> exists h t s', r = (Some (h, t), s') /\ P h t s'.
Proof. destruct r as [[[h t]|] s']; [|contradiction]. intro H. exists h, t, s'. split; [reflexivity|exact H]. Qed.
Lemma break_in_row : exists xrow s s' h t s1,
  ref_render [xrow] s = Ok tt s' /\ transformTable (doc_env [] [] [] []) no_style [xrow] s = (Some (h, t), s1) /\
  List.length (t_rows t) = 1 /\
  (let '(_, _, _, bottom) := @printableArea NumQ RefEngine (ps_eng s1) in snd (@getXY NumQ RefEngine (ps_eng s1)) + tallest h (t_rows t) 0 <= bottom)%Q /\
  ps_trace s = [] /\ pages (ps_trace s') = 1.
Proof.
  destruct (ok_unit (ref_render [boxed_row] (ref_state_at 70)) (fun s' => pages (ps_trace s') = 1)) as (s' & H1 & H2); [vm_compute; reflexivity|].
  destruct (some_table_state (transformTable (doc_env [] [] [] []) no_style [boxed_row] (ref_state_at 70))
    (fun h t s1 => List.length (t_rows t) = 1 /\ (snd (@getXY NumQ RefEngine (ps_eng s1)) + tallest h (t_rows t) 0 <= 90)%Q)) as (h & t & s1 & H3 & H4 & H5); [vm_compute; split; [reflexivity|discriminate]|].
  exists boxed_row, (ref_state_at 70), s', h, t, s1. split; [exact H1|]. split; [exact H3|]. split; [exact H4|]. split; [|split; [reflexivity|exact H2]].
  exact H5.
Qed.

(** The reference engine puts the cursor to the top margin after a page break. *)
Lemma ref_top : forall env depth (s s' : PS NumQ RefEngine), add_page (callbacks env depth) s = Ok tt s' -> snd (@getXY NumQ RefEngine (ps_eng s')) = 10%Q.
Proof.
  intros env depth s s' H. unfold add_page, command in H. cbn in H. unfold r_add_page in H.
  assert (Hdr : forall e (p p' : PS NumQ RefEngine), callbacks env depth Header p = Ok tt p' -> ps_eng p = r_set_busy true (r_next_page e) -> r_y (ps_eng p') = 10%Q).
  { intros e p p' Hc E. destruct (callback_end _ _ _ _ _ Hc) as (e' & E' & _). rewrite E'. cbn. rewrite E. reflexivity. }
  destruct (r_page (ps_eng s) =? 0)%Z; cbn in H.
  - destruct (callbacks env depth Header _) as [[] s1| |] eqn:Eh; try discriminate H. injection H as <-. cbn. exact (Hdr _ _ _ Eh eq_refl).
  - destruct (callbacks env depth Footer _) as [[] s1| |] eqn:Ef; try discriminate H. cbn in H.
    destruct (callbacks env depth Header _) as [[] s2| |] eqn:Eh; try discriminate H. injection H as <-. cbn. exact (Hdr _ _ _ Eh eq_refl).
Qed.
