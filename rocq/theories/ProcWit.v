(** Concrete documents and engines for the properties of processing. *)
From Coq Require Import QArith Lia Lqa Permutation.
From Verif Require Import GoStr Num Style Class Instr Engine Layout Grid Table Lines LinesSpec Proc RefEngine ProcView DrawSpec ImageFacts DrawWit ProcSpec ProcThms.
Local Open Scope nat_scope.

Definition with_size (v : Q) : Styled NumQ := mkStyled [[([0; 1], VFloat (F:=NumQ) v)]] [].
Definition with_padding_style (v : Q) : Styled NumQ := mkStyled [[([1; 1], VStruct [VFloat (F:=NumQ) v; VFloat (F:=NumQ) v; VFloat (F:=NumQ) v; VFloat (F:=NumQ) v])]] [].
Definition with_text_color (r g b : Z) : Styled NumQ := mkStyled [[([5; 1], VStruct [VInt (F:=NumQ) r; VInt g; VInt b])]] [].

(** C56: the second text is written in the font of the first. *)
Definition big_text : instr NumQ := IText (with_size 30%Q) [ITextBlock ($"a")].
Definition plain_text : instr NumQ := IText no_style [ITextBlock ($"b")].
Lemma font_leaks : exists i1 i2 s s' f f',
  ref_doc [] [] [i1; i2] = Ok None s /\ ref_doc [] [] [i2] = Ok None s' /\
  font_of_text ($"b") None (flat (ps_trace s)) = Some f /\ font_of_text ($"b") None (flat (ps_trace s')) = Some f' /\
  ~ (PointSize f == PointSize f')%Q.
Proof.
  destruct (ok_none (ref_doc [] [] [big_text; plain_text]) (fun s => font_of_text ($"b") None (flat (ps_trace s)) = Some (mkFont (F:=NumQ) ($"Arial") 30%Q ($"normal") ($"normal") ($"normal")))) as (s & H1 & H2); [vm_compute; reflexivity|].
  destruct (ok_none (ref_doc [] [] [plain_text]) (fun s => font_of_text ($"b") None (flat (ps_trace s)) = Some ref_font)) as (s' & H3 & H4); [vm_compute; reflexivity|].
  exists big_text, plain_text, s, s'. eexists _, _. split; [exact H1|]. split; [exact H3|]. split; [exact H2|]. split; [exact H4|]. vm_compute. discriminate.
Qed.

(** C58: an engine that does not call the footer function while it runs, but still calls the
    header function for pages added then. *)
Definition GuardEngine : Engine NumQ := mkEngine NumQ RS
  (@getXY _ RefEngine) (@printableArea _ RefEngine) (@pageWidth _ RefEngine) (@pageHeight _ RefEngine) (@margins _ RefEngine)
  (@fontHeight _ RefEngine) (@textWidth _ RefEngine) (@currentPage _ RefEngine) (@engError _ RefEngine) (@simple _ RefEngine)
  (fun e => if r_busy e then ECall Header (r_next_page e) (fun e' => EDone e') else r_add_page (fun e => e) e)
  r_write (@writePDF _ RefEngine) (@writeResult _ RefEngine).
Definition broken_footer : list (instr NumQ) := [IPageBreak; ISetY (85%Q : NumQ); IBox no_style [ITextBlock ($"x")]].
Lemma break_in_footer : exists (env : Env NumQ) (s s' : PS NumQ GuardEngine),
  (forall l, Permutation (e_shuffle env l) l) /\
  callbacks env 3 Footer s = Ok tt s' /\ ps_trace s = [] /\ newpages (e_footer env) = 1 /\ pages (ps_trace s') = 2.
Proof.
  set (s := mkPS (eng:=GuardEngine) (mkRS 1 10%Q 10%Q ref_font true None) (@DefaultStyle NumQ) false []).
  destruct (ok_unit (callbacks (eng:=GuardEngine) (plain_env [] broken_footer []) 3 Footer s) (fun s' => pages (ps_trace s') = 2)) as (s' & H1 & H2); [vm_compute; reflexivity|].
  exists (plain_env [] broken_footer []), s, s'. split; [intros l; apply Permutation_refl|]. split; [exact H1|]. split; [reflexivity|]. split; [reflexivity|exact H2].
Qed.

(** C59, C60: the reference engine. *)
Lemma ref_quiet : quiet_engine RefEngine (fun e => r_busy e = true).
Proof.
  assert (P : forall k e, calls_in (eng:=RefEngine) (fun _ e => r_busy e = true) (r_add_page k e)).
  { intros k e. unfold r_add_page. destruct (r_page e =? 0)%Z.
    - constructor; [reflexivity|]. intros e'. constructor.
    - constructor; [reflexivity|]. intros e1. constructor; [reflexivity|]. intros e'. constructor. }
  constructor.
  - intros e. apply P.
  - intros t e. cbn. unfold r_write. destruct (_ && _); [apply P|constructor].
  - intros e. cbn. constructor; [reflexivity|]. intros e'. constructor.
  - intros c e H. destruct c; exact H.
  - intros t e H. cbn. unfold r_write. rewrite H. cbn [negb andb]. eexists. split; [reflexivity|]. exact H.
Qed.
Lemma ref_calls_header : forall e : est RefEngine, calls_header (eng:=RefEngine) (addPage e).
Proof.
  intros e. cbn. unfold r_add_page. destruct (r_page e =? 0)%Z; [exact (CH_now (eng:=RefEngine) _ _)|]. refine (CH_later (eng:=RefEngine) Footer _ _ _). intros e1. exact (CH_now (eng:=RefEngine) _ _).
Qed.
Lemma header_newpage_loops : exists env : Env NumQ, (forall l, Permutation (e_shuffle env l) l) /\
  forall depth, process env depth ref_start = Diverge.
Proof.
  exists (plain_env [IPageBreak] [] []). split; [intros l; apply Permutation_refl|]. intros depth. apply loops.
  - intros l. apply Permutation_refl.
  - exact ref_calls_header.
  - left. reflexivity.
Qed.

(** C63 *)
Lemma box_off_page : exists body s x y w v,
  ref_doc [] [] body = Ok None s /\ In (Simple (FillRect x y w v)) (flat (ps_trace s)) /\
  (let '(_, top, _, bottom) := @printableArea NumQ RefEngine (ps_eng s) in v <= bottom - top /\ bottom < y + v)%Q.
Proof.
  destruct (ok_none (ref_doc [] [] [ISetY (70%Q : NumQ); IBox (with_padding_style 9%Q) [ITextBlock ($"x")]]) (fun s => existsb off_page (flat (ps_trace s)) = true)) as (s & H1 & H2); [vm_compute; reflexivity|].
  apply existsb_exists in H2 as (c & Hc & Ho). destruct c as [[]| | |]; try discriminate Ho. cbn in Ho. apply andb_prop in Ho as [O1 O2].
  eexists _, s, _, _, _, _. split; [exact H1|]. split; [exact Hc|]. cbn. apply Qle_bool_iff in O1. apply negb_true_iff in O2.
  split; [exact O1|]. apply Qnot_le_lt. intro K. apply Qle_bool_iff in K. rewrite K in O2. discriminate O2.
Qed.
Lemma ref_places : places RefEngine.
Proof. constructor; reflexivity. Qed.
Lemma ref_stable : page_stable (eng:=RefEngine).
Proof. intros f e. reflexivity. Qed.
