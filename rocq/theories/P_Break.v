(** Property C116: page breaks are suppressed in headers and footers only. Proofs are in
    BreakThms.v; [with_body] (PrefixSpec.v) is a document with another body, [draws_box] and
    [box_height] are those of C63 and C64. *)
From Coq Require Import QArith Permutation.
From Verif Require Import GoStr Num Style Class Instr Engine Layout LayoutSpec Table Lines LinesSpec LinesView Proc RefEngine ProcView ProcSpec ProcWit DrawSpec DrawWit LinesWit OutputSpec TableView TableWit PrefixSpec BreakThms.
Local Open Scope nat_scope.

(** C116: whatever the other instructions of the body, the header and the footer are, each
    instruction of the body begins and ends with page breaks allowed, and it begins with the
    default style but for the font. *)
Theorem C116_allowed : forall (F : Num) (env : Env F) (eng : Engine F), (forall l, Permutation (e_shuffle env l) l) ->
  forall pre i post depth (e : est eng) r s', process (with_body (pre ++ i :: post) env) depth e = Ok r s' ->
  exists f (s1 s2 : PS F eng) evs rest, processInstruction env (callbacks env depth) i s1 = Ok tt s2 /\
    ps_prevent s1 = false /\ ps_sty s1 = with_font f DefaultStyle /\ ps_prevent s2 = false /\
    ps_trace s2 = ps_trace s1 ++ evs /\ ps_trace s' = ps_trace s2 ++ rest.
Proof. exact @body_step. Qed.
Print Assumptions C116_allowed.

(** C116: hence the frame of any box of the body ends above the bottom margin, up to the padding
    and the offset (C63), if its text fits on a page. *)
Theorem C116_box : forall (env : Env NumQ) (eng : Engine NumQ), (forall l, Permutation (e_shuffle env l) l) ->
  places eng -> page_stable (eng:=eng) -> forall top depth,
  (forall s1 s2 : PS NumQ eng, add_page (callbacks env depth) s1 = Ok tt s2 -> snd (getXY (ps_eng s2)) = top) ->
  forall pre st iss post (e : est eng) r s', process (with_body (pre ++ IBox st iss :: post) env) depth e = Ok r s' ->
  exists f (s s1 : PS NumQ eng) h before frame rest x0 y0 x1 y1,
    let sty := e_mut env st (with_font f DefaultStyle) in
    let pad := Padding (SBox sty) in
    box_height env sty iss (sub (sub (effective_width (pg_area (fst (page_now s))) (Width (SDim sty))) (QLeft pad)) (QRight pad)) s h s1 /\
    map ev_cmd (ps_trace s') = before ++ frame ++ rest /\ draws_box x0 y0 x1 y1 sty frame /\
    (let '(_, _, _, m) := margins (ps_eng s1) in
     let bottom := sub (pageHeight (ps_eng s1)) m in
     ((top + h : Q) < bottom -> (y1 : Q) < bottom + OffsetY (SDim sty) + QTop pad + QBottom pad)%Q).
Proof. exact body_box. Qed.
Print Assumptions C116_box.
(** C116: and every row of a table of the body that fits below the repeated header rows at the top
    of a page ends above the bottom margin (C44; [schedule] is that of C42). *)
Theorem C116_table : forall (F : Num) (env : Env F) (eng : Engine F), (forall l, Permutation (e_shuffle env l) l) ->
  forall top depth, (forall s1 s2 : PS F eng, add_page (callbacks env depth) s1 = Ok tt s2 -> snd (getXY (ps_eng s2)) = top) ->
  forall pre st rh xrows post (e : est eng) r s', process (with_body (pre ++ ITable (XTable st rh xrows) :: post) env) depth e = Ok r s' ->
  exists f (s s1 : PS F eng) h t, ps_sty s = with_font f DefaultStyle /\ transformTable env st xrows s = (Some (h, t), s1) /\
    (t_columnCount t = 0 \/ exists evs rest before blocks s2 y',
      ps_trace s2 = ps_trace s1 ++ evs /\ ps_trace s' = ps_trace s2 ++ rest /\
      let '(_, _, _, bottom) := printableArea (ps_eng s1) in
      schedule env (callbacks env depth) h (t_rows t) rh (fst (getXY (ps_eng s1))) (snd (getXY (ps_eng s1))) bottom before blocks s1 s2 y' /\
      forall i b p y, nth_error blocks i = Some b -> b = p ++ [Row i y] ->
        ltb bottom (add (fold_left (fun v k => add v (height (t_rows t) k)) (headers (t_rows t) rh i) top) (tallest h (t_rows t) i)) = false ->
        ltb bottom (add y (tallest h (t_rows t) i)) = false).
Proof. exact body_table. Qed.
Print Assumptions C116_table.
(** Rows of 50, 20 and 50 units on pages of 80, after a text, each page with a header "t": two page
    breaks, and one by the engine while it writes the last text. *)
Example C116_table_example :
  outline (process (with_body [plain_text; ITable (XTable no_style 1 rows3); plain_text] (doc_env [] [IText no_style [ITextBlock ($"t")]] [] [])) 3 ref_start)
  = [None; Some ($"t"); Some ($"b"); None; Some ($"t"); Some ($"h"); Some ($"a"); None; Some ($"t"); Some ($"h"); Some ($"b"); Some ($"b"); Some ($"t")].
Proof. vm_compute. reflexivity. Qed.

(** A box at the bottom of the page, after a page with a header and a footer: it moves to a third
    page. *)
Example C116_example :
  let pre := [plain_text; IPageBreak; ISetY (85%Q : NumQ)] in
  (forall l, Permutation (e_shuffle (doc_env [] [plain_text] [plain_text] []) l) l) /\ places RefEngine /\ page_stable (eng:=RefEngine) /\
  (forall env depth (s s' : PS NumQ RefEngine), add_page (callbacks env depth) s = Ok tt s' -> snd (@getXY NumQ RefEngine (ps_eng s')) = 10%Q) /\
  match process (with_body (pre ++ IBox no_style [ITextBlock ($"x")] :: [plain_text]) (doc_env [] [plain_text] [plain_text] [])) 3 ref_start with
  | Ok None s => pages (ps_trace s) = 3
  | _ => False end.
Proof. split; [reflexivity|]. split; [exact ref_places|]. split; [exact ref_stable|]. split; [exact ref_top|]. vm_compute. reflexivity. Qed.
