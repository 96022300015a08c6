(** Concrete cases for C106. *)
From Coq Require Import QArith.
From Verif Require Import GoStr Num Style Class Instr Engine Layout Table Lines Proc RefEngine Font Fpdf FpdfSpec FpdfWit ProcView ProcWit TableView TableWit CellWit PlaceSpec PlaceWit PdfPrintSpec InsideSpec.
Local Open Scope nat_scope.

Lemma ref_metrics : metrics RefEngine chars (fun f => PointSize f).
Proof. constructor; reflexivity. Qed.
Lemma pdf_metrics : forall (pdf : Pdf NumQ) tw right, gofpdf_laws pdf -> gofpdf_prints pdf tw right -> gofpdf_sizes pdf -> metrics (FPDF NumQ pdf) (pdf_width tw) pdf_height.
Proof.
  intros pdf tw right L G Z. constructor.
  - intros f e s. exact (G_width _ _ _ G _ _ _ _ _).
  - intros f e. exact (Z _ _ _ e).
  - intros f e. exact (proj2 (proj2 (G_font _ L _ _ _ e))).
Qed.
Lemma ref_sizes : gofpdf_sizes RefPdf.
Proof. intros family style size e. reflexivity. Qed.

(** A cell with padding 2 and text at the bottom, next to a taller one. *)
Definition low_cell : Styled NumQ := mkStyled [[([4; 1], VStr (F:=NumQ) ($"bottom")); ([1; 1; 0], VFloat (F:=NumQ) 2%Q); ([1; 1; 1], VFloat (F:=NumQ) 2%Q); ([1; 1; 2], VFloat (F:=NumQ) 2%Q); ([1; 1; 3], VFloat (F:=NumQ) 2%Q); ([3; 0], VFloat (F:=NumQ) 14%Q)]] [].
Definition low_rows : list (xrow NumQ) :=
  [XRow no_style [XCell low_cell 1 1 [ITextBlock ($"aaaa bbbb")]; XCell no_style 1 1 [ITextBlock ($"x"); ILineBreak; ITextBlock ($"y"); ILineBreak; ITextBlock ($"z")]]].
Definition no_brace (t : bytes) : bool := forallb (fun c => negb (Ascii.eqb c "{"%char)) t.
Lemma no_brace_free : forall t, no_brace t = true -> ~ TextSpec.occurs ($"{cp}") t.
Proof.
  intros t H (a & b & ->). unfold no_brace in H. rewrite forallb_forall in H. specialize (H "{"%char).
  assert (In "{"%char (a ++ $"{cp}" ++ b)) by (apply in_or_app; right; left; reflexivity). specialize (H H0). discriminate H.
Qed.
Lemma low_printed : match transformTable (doc_env [] [] [] []) no_style low_rows ref_state with
  | (Some (h, t), _) => forallb (authored h) (flat_map r_cells (t_rows t)) = true /\
      Forall (fun c => plain_cell (e_mut (doc_env [] [] [] [])) (fun f => PointSize f) 12%Q (deref h c)) (flat_map r_cells (t_rows t)) /\
      match t_rows t with
      | [row] => match renderRow (doc_env [] [] [] []) (fun _ => ret tt) h (10%Q : NumQ) (20%Q : NumQ) row ref_state with
        | Engine.Ok y s' => Qred y = 68%Q /\ map (fun p => (option_map Qred (fst p), snd p)) (tops 12%Q None (map ev_cmd (ps_trace s'))) =
            [(Some 36, $"aaaa"); (Some 54, $"bbbb"); (Some 20, $"x"); (Some 38, $"y"); (Some 56, $"z")]%Q
        | _ => False end
      | _ => False end
  | _ => False end.
Proof.
  destruct (transformTable (doc_env [] [] [] []) no_style low_rows ref_state) as [[[h t]|] s'] eqn:E; [|vm_compute in E; discriminate E].
  vm_compute in E. injection E as <- <- <-. split; [reflexivity|]. split; [|vm_compute; split; reflexivity].
  assert (K : forall x : tcell NumQ, Qle_bool (Height (SDim (c_sty x))) 0 = true -> forallb (fun i => match i with ITextBlock t => no_brace t | ILineBreak => true | _ => false end) (c_iss x) = true ->
    LineSpacing (SDim (c_sty x)) = (3 # 2)%Q -> PointSize (SFont (c_sty x)) = 12%Q -> HAlign (SAlign (c_sty x)) = $"left" -> plain_cell (e_mut (doc_env [] [] [] [])) (fun f => PointSize f) 12%Q x).
  { intros x H1 H2 H3 H4 H5. rewrite forallb_forall in H2. unfold plain_cell. split; [apply Qle_bool_iff; exact H1|]. split; [|split; [rewrite H3; discriminate|split]].
    - intros i Hi. specialize (H2 i Hi). destruct i; try discriminate H2; split; try reflexivity; try exact I. apply no_brace_free. exact H2.
    - assert (E : PointSize (SFont (c_sty x)) == 12%Q) by (rewrite H4; reflexivity). intros f [<-|Hf]; [exact E|]. apply in_map_iff in Hf as (i & <- & Hi). specialize (H2 i Hi). destruct i; try discriminate H2; exact E.
    - rewrite H5. discriminate. }
  apply Forall_forall. intros c Hc. cbn [flat_map r_cells t_rows app In] in Hc. destruct Hc as [<-|[<-|[]]]; apply K; reflexivity.
Qed.
