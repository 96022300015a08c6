From Coq Require Import QArith Lqa Lia Permutation.
From Verif Require Import GoStr Num Style Class Instr Engine EngineFacts Layout LayoutSpec LayoutFacts Grid GridFacts Table Lines Proc ProcView RefEngine.

Section Image.
Context {F : Num} (env : Env F) {eng : Engine F}.

Lemma renderImage_run : forall st source pa (s : PS F eng),
  renderImage env st source pa s =
  match e_image env (e_resolve env source) with
  | None => (tt, s)
  | Some (wpx, hpx) =>
      let sty := e_mut env st (ps_sty s) in
      let '(w, h) := image_size pa sty wpx hpx in
      (tt, emitted (PutImage (e_resolve env source) (add (fst (getXY (ps_eng s))) (OffsetX (SDim sty)))
             (add (snd (getXY (ps_eng s))) (OffsetY (SDim sty))) w h) s)
  end.
Proof.
  intros. unfold renderImage. destruct (e_image env (e_resolve env source)) as [[wpx hpx]|]; [|reflexivity].
  unfold sbind, get, query. cbv zeta. destruct (image_size pa (e_mut env st (ps_sty s)) wpx hpx). reflexivity.
Qed.

Lemma grid_noop : (forall l, Permutation (e_shuffle env l) l) -> forall callback st rows parts (s : PS F eng),
  processInstruction env callback (IGrid st rows parts) s = Ok tt s.
Proof.
  intros Hsh callback st rows parts s. unfold processInstruction.
  pose proof (grid_main (e_shuffle env) (map gr_areas rows) Hsh) as H. destruct (render_grid (e_shuffle env) (map gr_areas rows)); [reflexivity|reflexivity|destruct H].
Qed.
End Image.

Lemma renderImage_fits : forall (env : Env NumQ) (eng : Engine NumQ) st source (pa : PrintableArea NumQ) (s : PS NumQ eng) wpx hpx,
  e_image env (e_resolve env source) = Some (wpx, hpx) -> (0 < wpx)%Z -> (0 < hpx)%Z ->
  let d := SDim (e_mut env st (ps_sty s)) in
  0 < (pa_width pa - OffsetX d : Q) -> 0 < (pa_height pa - OffsetY d : Q) ->
  exists x y w h wr hr,
    ps_trace (snd (renderImage env st source pa s)) =
      ps_trace s ++ [Ev (Simple (PutImage (e_resolve env source) x y w h)) []] /\
    x == fst (getXY (ps_eng s)) + OffsetX d /\ y == snd (getXY (ps_eng s)) + OffsetY d /\
    requested_size wpx hpx (Width d) (Height d) wr hr /\
    fitted wr hr (pa_width pa - OffsetX d) (pa_height pa - OffsetY d) w h.
Proof.
  intros env eng st source pa s wpx hpx Hi Hw Hh d Hpw Hph. rewrite renderImage_run, Hi. cbv zeta.
  destruct (image_size_Q pa (e_mut env st (ps_sty s)) wpx hpx Hw Hh Hpw Hph) as (wr & hr & Hreq & Hfit).
  destruct (image_size pa (e_mut env st (ps_sty s)) wpx hpx) as [w h].
  eexists _, _, w, h, wr, hr. split; [reflexivity|]. split; [reflexivity|]. split; [reflexivity|]. split; [exact Hreq|exact Hfit].
Qed.
Lemma renderImage_below : forall (env : Env NumQ) (eng : Engine NumQ) st source (pa : PrintableArea NumQ) (s : PS NumQ eng) wpx hpx,
  e_image env (e_resolve env source) = Some (wpx, hpx) -> (0 < wpx)%Z -> (0 < hpx)%Z ->
  let d := SDim (e_mut env st (ps_sty s)) in
  0 < (pa_width pa - OffsetX d : Q) -> 0 < (pa_height pa - OffsetY d : Q) ->
  exists src x y w h,
    ps_trace (snd (renderImage env st source pa s)) = ps_trace s ++ [Ev (Simple (PutImage src x y w h)) []] /\
    y + h <= pa_y1 pa + (snd (getXY (ps_eng s)) - pa_y0 pa).
Proof.
  intros env eng st source pa s wpx hpx Hi Hw Hh d Hpw Hph.
  destruct (renderImage_fits env eng st source pa s wpx hpx Hi Hw Hh Hpw Hph) as (x & y & w & h & wr & hr & Ht & _ & Hy & _ & Hfit).
  exists (e_resolve env source), x, y, w, h. split; [exact Ht|].
  destruct Hfit as (k & _ & _ & (_ & Hle) & _). unfold pa_height in Hle. cbn in *. fold d in Hy, Hle. lra.
Qed.
Lemma renderImage_missing : forall (F : Num) (env : Env F) (eng : Engine F) st source pa (s : PS F eng),
  e_image env (e_resolve env source) = None -> renderImage env st source pa s = (tt, s).
Proof. intros. rewrite renderImage_run, H. reflexivity. Qed.

Lemma ok_none {eng : Engine NumQ} (r : res eng (option bytes)) (P : PS NumQ eng -> Prop) :
  match r with Ok None s => P s | _ => False end -> exists s, r = Ok None s /\ P s.
Proof. destruct r as [[e|] s| |]; try contradiction. intro H. exists s. split; [reflexivity|exact H]. Qed.

Lemma image_off_page : exists body s src x y w h,
  ref_process [] [] body = Ok None s /\ In (Simple (PutImage src x y w h)) (flat (ps_trace s)) /\
  (let '(_, _, _, bottom) := @printableArea NumQ RefEngine (ps_eng s) in bottom < y + h).
Proof.
  exists [ISetY (60 : NumQ); IImage no_style ($"a.png")].
  destruct (ok_none (ref_process [] [] [ISetY (60 : NumQ); IImage no_style ($"a.png")])
    (fun s => In (Simple (PutImage (F:=NumQ) ($"a.png") 10 60 (24384 # 960) (48768 # 960))) (flat (ps_trace s)) /\
      (let '(_, _, _, bottom) := @printableArea NumQ RefEngine (ps_eng s) in bottom < 60 + (48768 # 960)))) as (s & H1 & H2).
  - vm_compute. split; [|reflexivity]. repeat (first [left; reflexivity|right]).
  - exists s, ($"a.png"), 10, 60, (24384 # 960), (48768 # 960). split; [exact H1|exact H2].
Qed.
Definition quiet_text (c : cmd NumQ) : bool := match c with WriteText _ => false | _ => true end.
Lemma grid_nothing : exists st rows parts,
  In (XGridPart no_style ($"a") [IText no_style [ITextBlock ($"hello")]]) parts /\ rectangular (map gr_areas rows) /\
  exists s, ref_process [] [] [IGrid st rows parts] = Ok None s /\ forall t, ~ In (WriteText t) (flat (ps_trace s)).
Proof.
  exists no_style, [XGridRow no_style [$"a"]], [XGridPart no_style ($"a") [IText no_style [ITextBlock ($"hello")]]].
  split; [left; reflexivity|]. split.
  - assert (H := grid_main (fun l => l) [[$"a"]] (fun l => Permutation_refl l)).
    destruct (render_grid (fun l => l) [[$"a"]]) as [bs| |] eqn:E; [exact (proj1 H)|vm_compute in E; discriminate E|contradiction].
  - destruct (ok_none (ref_process [] [] [IGrid no_style [XGridRow no_style [$"a"]] [XGridPart no_style ($"a") [IText no_style [ITextBlock ($"hello")]]]])
      (fun s => forallb quiet_text (flat (ps_trace s)) = true)) as (s & H1 & H2); [vm_compute; reflexivity|].
    exists s. split; [exact H1|]. intros t Ht. rewrite forallb_forall in H2. discriminate (H2 _ Ht).
Qed.
