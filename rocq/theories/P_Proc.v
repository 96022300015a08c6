(** Properties C55-C65 and C77: processing a document.

    [process env depth e] is Process on the document of [env] and an engine in state [e], with
    header and footer callbacks nested at most [depth] deep; it ends in a result and a state
    ([Ok]), or panics ([Panic]), or needs deeper callbacks ([Diverge]). The order in which Go
    iterates over a map is any permutation ([e_shuffle]). *)
From Coq Require Import QArith Lia Permutation.
From Verif Require Import GoStr Num Style Class Instr Engine Layout LayoutSpec Grid Table Lines LinesSpec WriteSpec Proc RefEngine ProcView DrawSpec ImageFacts DrawWit ProcSpec ProcThms ProcThms2 ProcThms3 ProcWit.
Local Open Scope nat_scope.

(** C55: the ambient style differs from the default style in the font only: at the end, and
    whenever header or footer functions are called. The second is expressed by letting the
    functions called back behave in any way, panics included, in other states. *)
Theorem C55_ambient : forall (F : Num) (env : Env F) (eng : Engine F), (forall l, Permutation (e_shuffle env l) l) ->
  forall callback : cb -> M eng unit, (forall c s, ambient s -> ends_ambient (callback c s)) ->
  (forall e, ends_ambient (process_body env callback (initial e))) /\
  (forall c s, ambient s -> ends_ambient (run_callback env callback c s)) /\
  (forall iss s, ambient s -> ends_ambient (processInstructions env callback iss s)).
Proof. exact (fun F env eng Hs cb Hc => conj (body_ambient env Hs cb Hc) (conj (callback_ambient env Hs cb Hc) (instructions_ambient env Hs cb Hc))). Qed.
Print Assumptions C55_ambient.
Theorem C55_process : forall (F : Num) (env : Env F) (eng : Engine F), (forall l, Permutation (e_shuffle env l) l) ->
  forall depth (e : est eng), ends_ambient (process env depth e).
Proof. exact @process_ambient. Qed.
Print Assumptions C55_process.
(** A text in red, then one without colour: the text colour is set to red, then to black again. *)
Example C55_example :
  flat_map (fun c => match c with Simple (SetTextColor r g b) => [(r, g, b)] | _ => [] end)
    (flat (trace_of (ref_doc [] [] [IText (with_text_color 255 0 0) [ITextBlock ($"a")]; IText no_style [ITextBlock ($"b")]])))
  = [(255, 0, 0); (0, 0, 0); (0, 0, 0); (0, 0, 0)]%Z.
Proof. vm_compute. reflexivity. Qed.

(** C56 fails: a text after a text with a font of its own is written in that font. *)
Theorem C56_refuted : exists i1 i2 s s' f f',
  ref_doc [] [] [i1; i2] = Ok None s /\ ref_doc [] [] [i2] = Ok None s' /\
  font_of_text ($"b") None (flat (ps_trace s)) = Some f /\ font_of_text ($"b") None (flat (ps_trace s')) = Some f' /\
  ~ (PointSize f == PointSize f')%Q.
Proof. exact font_leaks. Qed.
Print Assumptions C56_refuted.
(** What does hold: a text leaves the font of its last piece with words (any last piece in block
    text) as the ambient font; so its fonts are scoped if that is the ambient font. Callbacks
    made while writing must not change the ambient style. *)
Theorem C56_text_partial : forall (F : Num) (env : Env F) (eng : Engine F) (callback : cb -> M eng unit),
  (forall t (s s' : PS F eng), write_text callback t s = Ok tt s' -> ps_sty s' = ps_sty s) -> page_stable (eng:=eng) ->
  forall st iss (s s' : PS F eng), iss <> [] -> renderText env callback st iss s = Ok tt s' ->
  let sty := e_mut env st (ps_sty s) in
  let old := ps_sty s in
  ps_sty s' = mkStyles (last_font (text_fonts (e_mut env) (is_block sty) (currentPage (ps_eng (text_state sty s))) sty iss) (SFont old))
                (SBox old) (SDim old) (ColumnWidth old) (SAlign old) (SColor old) (LineWidth old).
Proof. exact @text_leaves_font. Qed.
Print Assumptions C56_text_partial.
Example C56_example :
  match renderText (doc_env [] [] [] []) (fun _ => ret tt) (with_size 30) [ITextBlock ($"a b"); IParagraph (with_size 7) ($"c"); ITextBlock ($" ")] ref_state with
  | Ok tt s => PointSize (SFont (ps_sty s)) = 7%Q
  | _ => False end.
Proof. vm_compute. reflexivity. Qed.

(** C57 *)
Theorem C57_cursor : forall (F : Num) (env : Env F) (eng : Engine F) (callback : cb -> M eng unit) c (s s' : PS F eng),
  run_callback env callback c s = Ok tt s' ->
  settable (eng:=eng) (fst (getXY (ps_eng s))) (snd (getXY (ps_eng s))) ->
  getXY (ps_eng s') = getXY (ps_eng s) /\ ps_prevent s' = false.
Proof. exact @callback_cursor. Qed.
Print Assumptions C57_cursor.
Example C57_example :
  match run_callback (plain_env [ISetY (50%Q : NumQ); plain_text] [] []) (fun _ => ret tt) Header ref_state with
  | Ok tt s => @getXY NumQ RefEngine (ps_eng s) = (10, 10)%Q /\ settable (F:=NumQ) (eng:=RefEngine) 10%Q 10%Q
  | _ => False end.
Proof. vm_compute. repeat split. Qed.

(** C58 fails when a callback is interrupted by another callback, which enables page breaks again. *)
Theorem C58_refuted : exists (env : Env NumQ) (s s' : PS NumQ GuardEngine),
  (forall l, Permutation (e_shuffle env l) l) /\
  callbacks env 3 Footer s = Ok tt s' /\ ps_trace s = [] /\ newpages (e_footer env) = 1 /\ pages (ps_trace s') = 2.
Proof. exact break_in_footer. Qed.
Print Assumptions C58_refuted.
(** It holds for the callbacks that are not interrupted: their page breaks are the newpage
    instructions of the header or footer. *)
Theorem C58_uninterrupted_partial : forall (F : Num) (env : Env F) (eng : Engine F), (forall l, Permutation (e_shuffle env l) l) ->
  forall depth c (s s' : PS F eng), callbacks env depth c s = Ok tt s' ->
  exists evs, ps_trace s' = ps_trace s ++ evs /\
    (uninterrupted evs -> pages evs = newpages (match c with Header => e_header env | Footer => e_footer env end)).
Proof. exact @callbacks_breaks. Qed.
Print Assumptions C58_uninterrupted_partial.
(** A box at the very bottom breaks the page in the body, not in the header. *)
Example C58_example :
  let low := [ISetY (85%Q : NumQ); IBox no_style [ITextBlock ($"x")]] in
  pages (trace_of (ref_doc [] [] low)) = 2 /\ outline (ref_doc low [] []) = [None; Some ($"x")].
Proof. vm_compute. split; reflexivity. Qed.

(** C59 *)
Theorem C59_terminates : forall (F : Num) (env : Env F) (eng : Engine F), (forall l, Permutation (e_shuffle env l) l) ->
  forall quiet, quiet_engine eng quiet -> ~ In IPageBreak (e_header env) -> ~ In IPageBreak (e_footer env) ->
  forall depth (e : est eng), exists r s', process env (S depth) e = Ok r s'.
Proof. exact @terminates. Qed.
Print Assumptions C59_terminates.
Example C59_example : quiet_engine RefEngine (fun e => r_busy e = true).
Proof. exact ref_quiet. Qed.

(** C60 fails, for every document and every engine that calls the header function for each page. *)
Theorem C60_loops : forall (F : Num) (env : Env F) (eng : Engine F), (forall l, Permutation (e_shuffle env l) l) ->
  (forall e : est eng, calls_header (addPage e)) -> In IPageBreak (e_header env) ->
  forall depth (e : est eng), process env depth e = Diverge.
Proof. exact @loops. Qed.
Print Assumptions C60_loops.
Theorem C60_refuted : exists env : Env NumQ, (forall l, Permutation (e_shuffle env l) l) /\
  forall depth, process env depth ref_start = Diverge.
Proof. exact header_newpage_loops. Qed.
Print Assumptions C60_refuted.

(** C61, C62: five calls, the last of them for the first page; then the calls for the
    instructions of the body, one after the other; then WritePDF, if the engine has no error.
    [performs] says that each instruction made the calls listed for it. *)
Theorem C61_written_once : forall (F : Num) (env : Env F) (eng : Engine F), (forall l, Permutation (e_shuffle env l) l) ->
  forall depth (e : est eng) r s', process env depth e = Ok r s' ->
  exists calls s0 pieces s1,
    ps_trace s0 = [Ev (Simple (SetPageCountAlias ($"{np}"))) []; Ev (Simple OnHeader) []; Ev (Simple OnFooter) [];
                   Ev (Simple (ChangeFont (SFont DefaultStyle))) []; Ev AddPage calls] /\
    writes_nothing (ps_trace s0) /\
    performs env (callbacks env depth) (e_body env) s0 pieces s1 /\
    ps_trace s1 = ps_trace s0 ++ List.concat pieces /\ writes_nothing (List.concat pieces) /\
    match engError (ps_eng s1) with
    | Some err => r = Some err /\ s' = s1
    | None => r = writeResult (ps_eng s') /\
              exists last, ps_trace s' = ps_trace s1 ++ [Ev WritePDF last] /\ forall p, In p last -> writes_nothing (snd p)
    end.
Proof. exact @process_parts. Qed.
Print Assumptions C61_written_once.
Example C61_example :
  map ev_cmd (trace_of (ref_doc [plain_text] [] [ISetX (20%Q : NumQ)])) =
    [Simple (SetPageCountAlias ($"{np}")); Simple OnHeader; Simple OnFooter; Simple (ChangeFont ref_font); AddPage; Simple (SetX (20%Q : NumQ)); WritePDF] /\
  match process (doc_env [] [] [] []) 3 (mkRS 0 0 0 ref_font false (Some ($"no font")) : est RefEngine) with
  | Ok r s => r = Some ($"no font") /\ ~ In WritePDF (map ev_cmd (ps_trace s))
  | _ => False end.
Proof. vm_compute. split; [reflexivity|]. split; [reflexivity|]. intros [|[|[|[|[|[]]]]]]; discriminate. Qed.
(** C62: rows, cells, paragraphs, text, line breaks and parts of grids outside of their
    elements make no calls. *)
Theorem C62_inner : forall (F : Num) (env : Env F) (eng : Engine F) callback i (s : PS F eng),
  inner_only i = true -> processInstruction env callback i s = Ok tt s.
Proof. exact @inner_silent. Qed.
Print Assumptions C62_inner.
Theorem C62_in_order : forall (F : Num) (env : Env F) (eng : Engine F), (forall l, Permutation (e_shuffle env l) l) ->
  forall depth (e : est eng) r s', process env depth e = Ok r s' ->
  exists before (s0 : PS F eng) pieces s1 after, ps_trace s0 = before /\
    performs env (callbacks env depth) (e_body env) s0 pieces s1 /\
    ps_trace s' = before ++ List.concat pieces ++ after /\ List.length before = 5 /\ List.length after <= 1.
Proof. exact @process_order. Qed.
Print Assumptions C62_in_order.
Example C62_example :
  outline (ref_doc [] [] [plain_text; ITextBlock ($"lost"); IPageBreak; ILineBreak; IText no_style [ITextBlock ($"c")]])
  = [None; Some ($"b"); None; Some ($"c")].
Proof. vm_compute. reflexivity. Qed.

(** C63 fails: the padding is not considered when deciding whether the box fits. *)
Theorem C63_refuted : exists body s x y w v,
  ref_doc [] [] body = Ok None s /\ In (Simple (FillRect x y w v)) (flat (ps_trace s)) /\
  (let '(_, top, _, bottom) := @printableArea NumQ RefEngine (ps_eng s) in v <= bottom - top /\ bottom < y + v)%Q.
Proof. exact box_off_page. Qed.
Print Assumptions C63_refuted.
(** The frame reaches below the bottom margin by less than the vertical padding and the offset,
    if the text fits on a page. Engines put the cursor to a fixed height after a page break. *)
Theorem C63_bottom_partial : forall (env : Env NumQ) (eng : Engine NumQ) (callback : cb -> M eng unit),
  places eng -> page_stable (eng:=eng) -> forall top,
  (forall s1 s2 : PS NumQ eng, add_page callback s1 = Ok tt s2 -> snd (getXY (ps_eng s2)) = top) ->
  forall st iss pa (s s' : PS NumQ eng), ps_prevent s = false -> renderTextBox env callback st iss pa s = Ok tt s' ->
  let sty := e_mut env st (ps_sty s) in
  let pad := Padding (SBox sty) in
  exists h s1 s2 frame rest x0 y0 x1 y1,
    box_height env sty iss (sub (sub (effective_width pa (Width (SDim sty))) (QLeft pad)) (QRight pad)) s h s1 /\
    wrote s2 s' (frame ++ rest) /\ draws_box x0 y0 x1 y1 sty frame /\
    (let '(_, _, _, m) := margins (ps_eng s1) in
     let bottom := sub (pageHeight (ps_eng s1)) m in
     ((top + h : Q) < bottom -> (y1 : Q) < bottom + OffsetY (SDim sty) + QTop pad + QBottom pad)%Q).
Proof. exact box_bottom. Qed.
Print Assumptions C63_bottom_partial.
Example C63_example : places RefEngine /\ page_stable (eng:=RefEngine) /\
  forall env depth (s s' : PS NumQ RefEngine), add_page (callbacks env depth) s = Ok tt s' -> snd (@getXY NumQ RefEngine (ps_eng s')) = 10%Q.
Proof. exact (conj ref_places (conj ref_stable ref_top)). Qed.

(** C64 *)
Theorem C64_box : forall (F : Num) (env : Env F) (eng : Engine F) (callback : cb -> M eng unit),
  places eng -> page_stable (eng:=eng) ->
  forall st iss pa (s s' : PS F eng), renderTextBox env callback st iss pa s = Ok tt s' ->
  let sty := e_mut env st (ps_sty s) in
  let pad := Padding (SBox sty) in
  let width := sub (sub (effective_width pa (Width (SDim sty))) (QLeft pad)) (QRight pad) in
  exists h s1 s2 frame (s3 : PS F eng) text,
    box_height env sty iss width s h s1 /\ box_break callback h s1 s2 /\
    let x0 := add (fst (getXY (ps_eng s2))) (OffsetX (SDim sty)) in
    let y0 := add (snd (getXY (ps_eng s2))) (OffsetY (SDim sty)) in
    let x1 := add (add (add x0 width) (QLeft pad)) (QRight pad) in
    let y1 := add (add (add y0 h) (QTop pad)) (QBottom pad) in
    draws_box x0 y0 x1 y1 sty frame /\
    (from_edge (add x0 (QLeft pad)) -> fst (getXY (ps_eng s3)) = add x0 (QLeft pad)) /\
    (from_edge (add y0 (QTop pad)) -> snd (getXY (ps_eng s3)) = add y0 (QTop pad)) /\
    (if match iss with [] => true | _ => false end then text = [] else text_written env sty iss width (fst (getXY (ps_eng s3))) s3 text) /\
    wrote s2 s' (frame ++ [Simple (SetY (add y0 (QTop pad))); Simple (SetX (add x0 (QLeft pad)))] ++ text ++ [Simple (SetY y1)] ++ reset_cmds s') /\
    (from_edge y1 -> snd (getXY (ps_eng s')) = y1).
Proof. exact @box_framed. Qed.
Print Assumptions C64_box.
Example C64_example :
  match renderTextBox (doc_env [] [] [] []) (fun _ => ret tt) (with_padding_style 3) [ITextBlock ($"x y")] (@mkPA NumQ 10%Q 10%Q 90%Q 90%Q) ref_state with
  | Ok tt s => (snd (@getXY NumQ RefEngine (ps_eng s)) == 28)%Q /\
      flat_map (fun c => match c with WriteText t => [t] | _ => [] end) (flat (ps_trace s)) = [$"x"; $" y"]
  | _ => False end.
Proof. vm_compute. split; reflexivity. Qed.

(** C65: [restored] says that the last calls were ChangeFont and SetTextColor with the ambient
    font and colour. A text without content makes no calls. *)
Theorem C65_restored : forall (F : Num) (env : Env F) (eng : Engine F) callback i (s s' : PS F eng),
  processInstruction env callback i s = Ok tt s' ->
  match i with IText _ [] => s' = s | IText _ _ | IBox _ _ | ITable _ => restored s' | _ => True end.
Proof. exact @element_restored. Qed.
Print Assumptions C65_restored.
Example C65_example :
  match processInstruction (doc_env [] [] [] []) (fun _ => ret tt) (IText (with_text_color 255 0 0) [ITextBlock ($"a")]) ref_state with
  | Ok tt s => map ev_cmd (ps_trace s) = [Simple (ChangeFont ref_font); Simple (SetTextColor 255 0 0); Simple (ChangeFont ref_font); Simple (SetX (10%Q : NumQ));
      Simple (ChangeFont ref_font); WriteText ($"a"); Simple (LineFeed ((3 # 2)%Q : NumQ)); Simple (ChangeFont ref_font); Simple (SetTextColor 0 0 0)]
  | _ => False end.
Proof. vm_compute. reflexivity. Qed.

(** C77 *)
Theorem C77_no_panic : forall (F : Num) (env : Env F) (eng : Engine F), (forall l, Permutation (e_shuffle env l) l) ->
  forall depth (e : est eng), process env depth e <> Panic.
Proof. exact @never_panics. Qed.
Print Assumptions C77_no_panic.
(** A table with too large spans, a grid that is no rectangle, and an image that cannot be read. *)
Example C77_example :
  match ref_doc [] [] [ITable (XTable no_style 5 [xr [xcs 9 9 ($"a"); xcs 0 (-1) ($"b")]; xr []]);
                       IGrid no_style [XGridRow no_style [$"a"; $"b"]; XGridRow no_style [$"a"]] []; IImage no_style ($"missing")] with
  | Ok None _ => True | _ => False end.
Proof. vm_compute. exact I. Qed.
