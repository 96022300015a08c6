(** C104 and C105: the texts that show a table and an area for debugging. *)
From Coq Require Import QArith Qabs Floats.SpecFloat.
From Verif Require Import GoStr Num Style Class Instr Engine Layout Grid Table Lines Proc ProcView TableView TableSpec RefEngine TableWit TableDump GridTextSpec GridTextThms DimsTextSpec DimsTextFacts FloatWit.
Local Open Scope nat_scope.

(** C104 *)
Theorem C104_spans : forall (F : Num) (env : Env F) (eng : Engine F) st xrows (s s' : PS F eng) h t,
  transformTable env st xrows s = (Some (h, t), s') ->
  xrows <> [] -> exists g, read_grid (dumpTableSpans h t) = Some g /\
  (forall m, List.length g <= m <-> List.length xrows <= m /\ forall i x, In x (xcells xrows i) -> i + snd (xspans x) <= m) /\
  (forall i, i < List.length g -> List.length (nth i g []) = List.length (nth 0 g [])) /\
  (forall i j e, at_pos g i j = Some e -> fst e = (i, j)) /\
  (forall i, map snd (filter is_cell (nth i g [])) = map xmark (xcells xrows i)) /\
  (forall i j p i' j', at_pos g i j = Some (p, By i' j') -> exists e, at_pos g i' j' = Some e /\ is_cell e = true) /\
  (forall i' j' p m, at_pos g i' j' = Some (p, m) -> is_cell (p, m) = true -> forall i,
     belonging i' j' (nth i g []) = if i =? i' then fst (mark_spans m) - 1 else if (i' <? i) && (i <? i' + snd (mark_spans m)) then 1 else 0).
Proof. exact @spans_text. Qed.
Print Assumptions C104_spans.
(** A table with a column span and a row span; the third row is filled up. *)
Example C104_example : match ref_table [xr [xcs 2 1 ($"a"); xc ($"b")]; xr [xcs 1 2 ($"c"); xc ($"d")]; xr [xc ($"e")]] with
  | (Some (h, t), _) => dumpTableSpans h t =
      $"[0:0-colsp:2:1], [0:1-byspn:0:0], [0:2-regl-cell]" ++ [lf] ++
      $"[1:0-rowsp:1:2], [1:1-regl-cell], [1:2-zero-cell]" ++ [lf] ++
      $"[2:0-byspn:1:0], [2:1-regl-cell], [2:2-zero-cell]" /\
      option_map (fun g => (at_pos g 0 0, at_pos g 2 0, belonging 1 0 (nth 2 g []))) (read_grid (dumpTableSpans h t)) = Some (Some (0, 0, Wide 2 1), Some (2, 0, By 1 0), 1)
  | _ => False end.
Proof. vm_compute. split; reflexivity. Qed.

(** C105 *)
Theorem C105_dims : forall (env : Env NumF64) (eng : Engine NumF64) st xrows (s s' : PS NumF64 eng) h t,
  transformTable env st xrows s = (Some (h, t), s') -> t_rows t <> [] ->
  (forall c, In c (flat_map r_cells (t_rows t)) -> finite (c_width (deref h c)) = true /\ finite (c_height (deref h c)) = true /\ finite (c_minHeight (deref h c)) = true) ->
  exists g, read_dims (dumpTableDims h t) = Some g /\ List.length g = List.length (t_rows t) /\ (forall i ds, nth_error g i = Some ds -> List.length ds = t_columnCount t) /\
  forall i j c, cell_at (t_rows t) i j = Some c -> exists w v u, dims_at g i j = Some (i, j, (w, v, u)) /\
    nearest w (c_width (deref h c)) /\ nearest v (c_height (deref h c)) /\ nearest u (c_minHeight (deref h c)).
Proof. exact dims_text. Qed.
Print Assumptions C105_dims.
Theorem C105_area : forall pa : PrintableArea NumF64, finite (pa_x0 pa) = true -> finite (pa_y0 pa) = true -> finite (pa_x1 pa) = true -> finite (pa_y1 pa) = true ->
  exists a b c d qa qb qc qd, area_String pa = $"x0=" ++ a ++ $", y0=" ++ b ++ $", x1=" ++ c ++ $", y1=" ++ d /\
  Forall (fun s => ~ In ","%char s) [a; b; c; d] /\
  decimal1 a = Some qa /\ nearest qa (pa_x0 pa) /\ decimal1 b = Some qb /\ nearest qb (pa_y0 pa) /\
  decimal1 c = Some qc /\ nearest qc (pa_x1 pa) /\ decimal1 d = Some qd /\ nearest qd (pa_y1 pa).
Proof. exact area_text. Qed.
Print Assumptions C105_area.
(** Four columns of 0.1 and 63.3. The cells are empty. *)
Example C105_example : match transformTable f_env no_style f_rows f_state with
  | (Some (h, t), _) => (forallb (fun c => finite (c_width (deref h c)) && finite (c_height (deref h c)) && finite (c_minHeight (deref h c))) (flat_map r_cells (t_rows t)),
      dumpTableDims h t)
  | _ => (false, []) end =
  (true, $"[0:0:w=0.1:h=0.0:mh=-2.5], [0:1:w=63.3:h=0.0:mh=-2.5], [0:2:w=63.3:h=0.0:mh=-2.5], [0:3:w=63.3:h=0.0:mh=-2.5]").
Proof. match goal with |- _ = ?b => vm_cast_no_check (eq_refl b) end. Qed.
Example C105_area_example : area_String (mkPA (of_Z 10 : NumF64) (sub zero (div (of_Z 1) (of_Z 4))) (div (of_Z 9999) (of_Z 50)) (of_Z 287)) =
  $"x0=10.0, y0=-0.2, x1=200.0, y1=287.0".
Proof. match goal with |- _ = ?b => vm_cast_no_check (eq_refl b) end. Qed.
