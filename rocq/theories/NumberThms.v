(** Proofs about the page numbers that are printed (C103). *)
From Coq Require Import Permutation Lia.
From Verif Require Import GoStr GoStrFacts Num Style Class Instr Engine Lines LinesSpec LinesView WriteSpec Proc ProcSpec OutputSpec OutputRun OutputThms NumberSpec Fpdf.
Local Open Scope nat_scope.

Section Log.
Context {F : Num}.
Lemma page_after_calls : forall n c (calls : list (cb * list (event F))), (forall c', c <> Simple c') -> page_after n (Ev c calls) = fold_left (fun n x => pages_after (page_in (fst x) n) (snd x)) calls n.
Proof.
  assert (A : forall evs n, (fix all (n : Z) (evs : list (event F)) : Z := match evs with [] => n | e' :: evs' => all (page_after n e') evs' end) n evs = pages_after n evs).
  { induction evs as [|e evs IH]; intros n; [reflexivity|]. apply IH. }
  intros n c calls N. destruct c as [c| | |]; [exfalso; exact (N c eq_refl)|..]; clear N; revert n; (induction calls as [|[c' sub] calls IH]; intros n; [reflexivity|]);
    cbn [page_after fold_left fst snd] in *; rewrite A; apply IH.
Qed.
Lemma pages_app : forall n (a b : list (event F)), pages_after n (a ++ b) = pages_after (pages_after n a) b.
Proof. intros. apply fold_left_app. Qed.
Lemma log_app : forall (a : list (event F)) n b, page_log n (a ++ b) = page_log n a ++ page_log (pages_after n a) b.
Proof. induction a as [|e a IH]; intros n b; [reflexivity|]. cbn. rewrite IH, app_assoc. reflexivity. Qed.
Lemma log_texts : forall (evs : list (event F)) n, map en_text (page_log n evs) = written evs.
Proof. induction evs as [|e evs IH]; intros n; [reflexivity|]. cbn. rewrite map_app, IH. f_equal. destruct (ev_cmd e); reflexivity. Qed.
Lemma on_at : forall n (evs : list (event F)) c m sub, call_on n evs c m sub -> call_at pages_after page_in n evs c m sub
with called_on_at : forall n (calls : list (cb * list (event F))) c m sub, called_on n calls c m sub -> called_at pages_after page_in n calls c m sub.
Proof.
  - intros n evs c m sub H. destruct H as [n e evs c m sub H|n cm calls evs c m sub H]; [apply A_later; apply on_at; exact H|apply A_now; apply called_on_at; exact H].
  - intros n calls c m sub H. destruct H as [n calls c sub|n calls c sub c' m sub' H|n calls c sub c' m sub' H]; [apply D_this|apply D_deep; apply on_at; exact H|apply D_later; apply called_on_at; exact H].
Qed.
(** Texts begin no page themselves. *)
Definition textual (c : cmd F) : Prop := match c with Simple _ | WriteText _ => True | _ => False end.
Lemma log_first : forall (evs : list (event F)) n q o, Forall textual (map ev_cmd evs) -> page_log n evs = q :: o -> asked_on q = n.
Proof.
  induction evs as [|[c calls] evs IH]; intros n q o H E; [discriminate E|]. cbn [map ev_cmd] in H. inversion H as [|? ? H1 H2]; subst. destruct c as [c| |t|]; try destruct H1.
  - exact (IH _ _ _ H2 E).
  - injection E as <- _. reflexivity.
Qed.
Lemma plain_textual : forall its : list (textItem F), Forall textual (plain_items its).
Proof. induction its as [|it its IH]; [constructor|]. cbn. do 2 (constructor; [exact I|]). exact IH. Qed.
Lemma moved_textual : forall (its : list (textItem F)) xs, Forall textual (moved_items its xs).
Proof. induction its as [|it its IH]; [intros; constructor|]. intros [|x xs]; [constructor|]. unfold moved_items. cbn. do 3 (constructor; [exact I|]). apply IH. Qed.
Lemma line_textual : forall sty w x (l : textLine F), Forall textual (line_cmds sty w x l).
Proof.
  intros. unfold line_cmds. apply Forall_app. split; [unfold line_start; repeat destruct (beqb _ _); repeat constructor|]. apply Forall_app. split; [apply plain_textual|repeat constructor].
Qed.
Lemma block_textual : forall sty x (l : textLine F) cs, block_cmds sty x l cs -> Forall textual cs.
Proof.
  intros sty x l cs H. unfold block_cmds in H. destruct (stretched l); [destruct H as (xs & _ & ->)|subst cs]; (constructor; [exact I|]); apply Forall_app; (split; [|repeat constructor]); [apply moved_textual|apply plain_textual].
Qed.
Lemma start_textual : forall (sty : Styles F) fs, Forall textual (start_cmds sty fs).
Proof. intros. repeat (constructor; [exact I|]). induction fs as [|f fs IH]; constructor; [exact I|exact IH]. Qed.
Lemma written_textual : forall env (eng : Engine F) sty iss width x (s : PS F eng) cmds, text_written env sty iss width x s cmds -> Forall textual cmds.
Proof.
  intros env eng sty iss width x s cmds H. unfold text_written in H. destruct (beqb _ _).
  - destruct H as (lines & s1 & css & _ & C & ->). apply Forall_app. split; [apply start_textual|]. clear - C. induction C as [|l cs lines css Hl C IH]; [constructor|]. cbn. apply Forall_app. split; [exact (block_textual _ _ _ _ Hl)|exact IH].
  - destruct H as (lines & s1 & _ & ->). apply Forall_app. split; [apply start_textual|]. clear. induction lines as [|l lines IH]; [constructor|]. cbn. apply Forall_app. split; [apply line_textual|exact IH].
Qed.
(** Page numbers never decrease. *)
Lemma page_grows : forall (e : event F) n, (n <= page_after n e)%Z.
Proof.
  fix IH 1. intros [c calls] n. destruct c as [c| | |]; [apply Z.le_refl|..]; rewrite page_after_calls by discriminate;
  (revert n; induction calls as [|[c' sub] calls IHc]; intros n; [apply Z.le_refl|]; cbn [fold_left fst snd];
   (eapply Z.le_trans; [|apply IHc]); apply (Z.le_trans _ (page_in c' n)); [destruct c'; cbn; lia|]; clear - IH; generalize (page_in c' n); clear n;
   (induction sub as [|e sub IHs]; intros n; [apply Z.le_refl|]; eapply Z.le_trans; [apply (IH e)|apply IHs])).
Qed.
Lemma pages_grow : forall (evs : list (event F)) n, (n <= pages_after n evs)%Z.
Proof. induction evs as [|e evs IH]; intros n; [apply Z.le_refl|]. eapply Z.le_trans; [apply (page_grows e)|apply IH]. Qed.
Lemma log_range : forall (evs : list (event F)) n q, In q (page_log n evs) -> (n <= asked_on q <= printed_on q)%Z /\ (printed_on q <= pages_after n evs)%Z.
Proof.
  induction evs as [|e evs IH]; intros n q H; [destruct H|]. cbn [page_log] in H. apply in_app_iff in H as [H|H].
  - assert (G := page_grows e n). assert (G' := pages_grow evs (page_after n e)). destruct (ev_cmd e) as [?| |t|]; [destruct H|destruct H|destruct H as [<-|[]]|destruct H]. cbn. unfold pages_after in *. cbn. lia.
  - apply IH in H as [H1 H2]. assert (G := page_grows e n). cbn. unfold pages_after in *. split; lia.
Qed.
Lemma log_here : forall (env : Env F) sty iss n o, (forall q, In q o -> asked_on q = n /\ printed_on q = n) -> numbered_first env sty iss o -> numbered_here env sty iss o.
Proof.
  intros env sty iss n o H (page & T & P) q Hq. destruct o as [|q' o]; [destruct Hq|]. rewrite (proj2 (H q Hq)). rewrite <- (proj1 (H q' (or_introl eq_refl))), (P q' o eq_refl). exact T.
Qed.
End Log.
Section Text.
Context {F : Num} (env : Env F) {eng : Engine F}.
Hypothesis Hpage : page_stable (eng:=eng).
Hypothesis Hnum : numbers_pages eng.
Lemma follow_paged : forall prog n, paged (eng:=eng) n prog ->
  (fix follows (p : Z) (prog : eprog (est eng)) := match prog with EDone e => p = currentPage e | ECall c e k => page_in c p = currentPage e /\ forall q e', q = currentPage e' -> follows q (k e') end) n prog.
Proof.
  induction prog as [e|c e k IH]; intros n H; [symmetry; exact H|]. destruct H as [H1 H2]. split; [symmetry; exact H1|]. intros q e' ->. apply IH. apply H2.
Qed.
Lemma numbered_text : forall sty iss width x (s : PS F eng) evs, text_written env sty iss width x s (map ev_cmd evs) -> numbered_first env sty iss (page_log (currentPage (ps_eng s)) evs).
Proof.
  intros sty iss width x s evs W. exists (currentPage (ps_eng s)). split.
  - rewrite log_texts, written_cmds. assert (K := written_out_on env Hpage _ _ _ _ _ _ W).
    replace (currentPage (ps_eng (text_state sty s))) with (currentPage (ps_eng s)) in K; [exact K|]. unfold text_state. cbn. rewrite !(N_simple _ Hnum). reflexivity.
  - intros q o E. exact (log_first _ _ _ _ (written_textual _ _ _ _ _ _ _ _ W) E).
Qed.
Lemma numbered_nil : forall sty, numbered_first env sty [] [].
Proof.
  intros sty. exists 0%Z. split; [|discriminate]. unfold text_out_on. destruct (beqb _ _); [|reflexivity]. intros _. exists []. split; [reflexivity|]. split; [reflexivity|]. intros a p E. destruct a; discriminate E.
Qed.
Definition pages_ob : Observer env eng.
Proof.
  refine (mkObserver F env eng entry Z page_log pages_after page_in (fun n e => n = currentPage e) (numbered_first env) _ _ _ _ _ _ _ _ _ _ _ numbered_nil _).
  - reflexivity.
  - intros. apply log_app.
  - intros p c calls N. destruct c; try reflexivity. exfalso. exact (N _ eq_refl).
  - reflexivity.
  - intros. apply pages_app.
  - intros e. eexists. reflexivity.
  - intros p e c ->. symmetry. exact (N_simple _ Hnum c e).
  - intros p e c calls N K. unfold pages_after at 1. cbn [fold_left]. rewrite page_after_calls by exact N. exact K.
  - intros p e ->. apply follow_paged, (N_page _ Hnum).
  - intros t p e ->. apply follow_paged, (N_write _ Hnum).
  - intros p e ->. apply follow_paged, (N_pdf _ Hnum).
  - intros sty iss width x s evs W p ->. eexists. split; [exact (numbered_text _ _ _ _ _ _ W)|reflexivity].
Defined.
Hypothesis Hplace : places eng.
Hypothesis Hshuffle : forall l, Permutation (e_shuffle env l) l.
Lemma process_numbers : forall depth e r (s' : PS F eng), process env depth e = Ok r s' ->
  numbers_texts env (numbered_first env) (e_body env) (currentPage e) (ps_trace s') /\
  forall c n sub, call_on (currentPage e) (ps_trace s') c n sub -> numbers_texts env (numbered_first env) (match c with Header => e_header env | Footer => e_footer env end) n sub.
Proof.
  intros depth e r s' H. destruct (process_leaves env Hplace Hpage Hshuffle pages_ob depth e r s' H (currentPage e) eq_refl) as [A B]. split; [exact A|].
  intros c n sub K. apply on_at in K. exact (B c n sub K).
Qed.
Lemma numbers_here : forall iss n (evs : list (event F)), pages_after n evs = n -> numbers_texts env (numbered_first env) iss n evs -> numbers_texts env (numbered_here env) iss n evs.
Proof.
  intros iss n evs Q (ls & outs & S & T & E). exists ls, outs. split; [exact S|]. split; [|exact E].
  assert (R : forall o, In o outs -> forall q, In q o -> asked_on q = n /\ printed_on q = n).
  { intros o Ho q Hq. assert (I : In q (page_log n evs)) by (rewrite E; apply in_concat; exists o; auto). apply log_range in I. lia. }
  clear E S. induction T as [|p o ps outs H T IH]; constructor; [exact (log_here env _ _ n o (R o (or_introl eq_refl)) H)|]. apply IH. intros o' Ho. exact (R o' (or_intror Ho)).
Qed.
Lemma callbacks_here : forall depth e r (s' : PS F eng), process env depth e = Ok r s' ->
  forall c n sub, call_on (currentPage e) (ps_trace s') c n sub -> pages_after n sub = n ->
  numbers_texts env (numbered_here env) (match c with Header => e_header env | Footer => e_footer env end) n sub.
Proof. intros depth e r s' H c n sub K Q. apply numbers_here; [exact Q|]. exact (proj2 (process_numbers depth e r s' H) c n sub K). Qed.
End Text.

(** The PDF engine. *)
Lemma pdf_paged_paged : forall (F : Num) (pdf : Pdf F) prog n, pdf_paged pdf n prog -> paged (eng:=FPDF F pdf) n prog.
Proof. intros F pdf prog. induction prog as [e|c e k IH]; intros n H; [exact H|]. destruct H as [H1 H2]. split; [exact H1|]. intros e'. apply IH, H2. Qed.
Lemma fpdf_numbers : forall (F : Num) (pdf : Pdf F), gofpdf_pages pdf -> numbers_pages (FPDF F pdf).
Proof.
  intros F pdf [[Gh [Gf Ga]] [Gx [Gxy Gl]] Gfo Gi Gc Gw [Gr [Gm [Gli Gp]]] Gap Gwr Go]. unfold keeps_no in *. constructor.
  - intros c e. destruct c; cbn; auto; try apply Gc. destruct (getFontSize F pdf e). apply Gl.
  - intros e. apply pdf_paged_paged, Gap.
  - intros t e. apply pdf_paged_paged, Gwr.
  - intros e. apply pdf_paged_paged, Go.
Qed.
