(** Properties of style decoding. *)
From Coq Require Import Permutation.
From Verif Require Import GoStr Utf8 GoFmt Scan Style StyleSpec StyleFacts ScanFacts ClassView.

(** C16 *)
Theorem C16_order_independent : forall F (parse_float convert_float : bytes -> option F) s sh1 sh2,
  map_order sh1 -> map_order sh2 ->
  match decode_mutator F parse_float convert_float sh1 s, decode_mutator F parse_float convert_float sh2 s with
  | Some m1, Some m2 => forall st, exists st', mutate m1 st = Some st' /\ mutate m2 st = Some st'
  | None, None => True
  | _, _ => False
  end.
Proof. exact decode_order. Qed.
Print Assumptions C16_order_independent.
(** The two orders of a map with two keys give different mutators, both accepted. *)
Example C16_example :
  map_order (@rev _) /\ map_order (fun l => l) /\
  decode_mutator Z sample_float sample_float (@rev _) ($"width:3;height:4") =
    Some [([2; 1], VFloat 4%Z); ([2; 0], VFloat 3%Z)] /\
  decode_mutator Z sample_float sample_float (fun l => l) ($"width:3;height:4") =
    Some [([2; 0], VFloat 3%Z); ([2; 1], VFloat 4%Z)].
Proof.
  split; [intros l; apply Permutation_sym, Permutation_rev|]. split; [intros l; apply Permutation_refl|].
  split; vm_compute; reflexivity.
Qed.

(** C17: a decoded style never panics when applied; every property has the value of its last
    declaration, or its old value if it is not declared. *)
Theorem C17_sets_exactly : forall F (parse_float convert_float : bytes -> option F) sh s m st,
  map_order sh -> decode_mutator F parse_float convert_float sh s = Some m ->
  exists st', mutate m st = Some st' /\ forall p,
    (forall v, last_decl (items s) (prop_name p) v ->
       prop_value parse_float convert_float p v = Some (prop_get p st')) /\
    ((forall v, ~ last_decl (items s) (prop_name p) v) -> prop_get p st' = prop_get p st).
Proof. exact decode_sets. Qed.
Print Assumptions C17_sets_exactly.
(** The properties are all there is to a Styles value. *)
Theorem C17_properties_complete : forall F (s s' : Styles F), (forall p, prop_get p s = prop_get p s') -> s = s'.
Proof. exact props_ext. Qed.
Print Assumptions C17_properties_complete.
(** What a declaration is can be decided, and there is at most one last one. *)
Theorem C17_last_decl_functional : forall l k v v', last_decl l k v -> last_decl l k v' -> v = v'.
Proof. exact last_decl_fun. Qed.
Print Assumptions C17_last_decl_functional.
(** The items are what is between the semicolons; [trim is_ws], by which keys and values are read,
    takes away the blanks around a text and nothing else. *)
Theorem C17_items : forall s, str_join [";"%char] (items s) = s /\ items s <> [] /\ forall d, In d (items s) -> ~ In ";"%char d.
Proof. exact items_split. Qed.
Print Assumptions C17_items.
Theorem C17_stripped : forall s t, t = trim is_ws s <-> stripped s t.
Proof. exact trim_stripped. Qed.
Print Assumptions C17_stripped.
Example C17_example :
  let s := $" width : 3;; unknown:x ;width:5 ; color:#ff0010" in
  last_decl (items s) (prop_name width) ($"5") /\
  match decode_mutator Z sample_float sample_float (fun l => l) s with
  | Some m => match mutate m sample_styles with
              | Some st => prop_get width st = VFloat 5%Z /\ prop_get color st = rgb_val (mkRGB 255 0 16) /\
                           prop_get height st = prop_get height sample_styles
              | None => False end
  | None => False
  end.
Proof.
  split; [|vm_compute; auto].
  exists [$" width : 3"; []; $" unknown:x "], ($"width:5 "), [$" color:#ff0010"].
  split; [vm_compute; reflexivity|]. split.
  - exists ($"width"), ($"5 "). repeat split; vm_compute; intros H; repeat (destruct H as [H|H]; [discriminate H|]); exact H.
  - intros d' v' [<-|[]] H. pose proof (declares_fun _ _ _ ($"color") ($"#ff0010") H) as [E _]; [|discriminate E].
    exists ($" color"), ($"#ff0010"). repeat split; vm_compute; intros G; repeat (destruct G as [G|G]; [discriminate G|]); exact G.
Qed.

(** C18 *)
Theorem C18_rejects_exactly : forall F (parse_float convert_float : bytes -> option F) sh, map_order sh -> forall s,
  decode_mutator F parse_float convert_float sh s = None <->
  Exists (fun d => ~ blank_item d /\ forall k v, ~ declares d k v) (items s) \/
  (exists v, last_decl (items s) [] v) \/
  (exists p v, last_decl (items s) (prop_name p) v /\ prop_value parse_float convert_float p v = None).
Proof. exact decode_none. Qed.
Print Assumptions C18_rejects_exactly.
Example C18_example :
  map (fun s => match decode_mutator Z sample_float sample_float (fun l => l) ($ s) with Some _ => true | None => false end)
    ["width:3"; ""; " ; "; "width"; "width:3:4"; ":3"; "width:x"; "width:x;width:3"; "nonsense:x"]%string =
  [true; true; true; false; false; false; false; true; true].
Proof. vm_compute. reflexivity. Qed.

(** C19 *)
Theorem C19_colour_accepts_exactly : forall v c, unmarshal_rgb v = Some c <->
  exists d1 d2 d3 d4 d5 d6 n1 n2 n3 n4 n5 n6,
    (v = [d1; d2; d3; d4; d5; d6] \/ v = ["#"%char; d1; d2; d3; d4; d5; d6]) /\
    hex_value d1 n1 /\ hex_value d2 n2 /\ hex_value d3 n3 /\ hex_value d4 n4 /\ hex_value d5 n5 /\ hex_value d6 n6 /\
    c = mkRGB (pair_value n1 n2) (pair_value n3 n4) (pair_value n5 n6).
Proof. exact rgb_iff. Qed.
Print Assumptions C19_colour_accepts_exactly.
Theorem C19_colour_range : forall v c, unmarshal_rgb v = Some c -> component (R c) /\ component (G c) /\ component (B c).
Proof. exact rgb_range. Qed.
Print Assumptions C19_colour_range.
Theorem C19_colour_round_trip : forall c, component (R c) -> component (G c) -> component (B c) ->
  unmarshal_rgb (show_rgb c) = Some c.
Proof. exact rgb_round_trip. Qed.
Print Assumptions C19_colour_round_trip.
Example C19_example :
  show_rgb (mkRGB 255 9 171) = $"#ff09ab" /\ unmarshal_rgb ($"FF09aB") = Some (mkRGB 255 9 171) /\
  unmarshal_rgb ($"#ff09a") = None /\ unmarshal_rgb ($"ff09ag") = None /\ unmarshal_rgb ($"##ff09a") = None.
Proof. vm_compute. auto. Qed.

(** C20 *)
(** Exactly which texts give which four integers. *)
Theorem C20_integers_exactly : forall s a b c d, scan4 scan_int s = Some (a, b, c, d) <->
  exists rest, four int_token (decode s) a b c d rest /\ not_digit_first rest /\
    in_int64 a /\ in_int64 b /\ in_int64 c /\ in_int64 d.
Proof. exact scan4_int_iff. Qed.
Print Assumptions C20_integers_exactly.
(** Decimal texts of integers, with leading blanks, in the order left, top, right, bottom. *)
Theorem C20_border_round_trip : forall F l t r b w1 w2 w3 w4,
  in_int64 l -> in_int64 t -> in_int64 r -> in_int64 b ->
  Forall blank_rune w1 -> Forall blank_rune w2 -> Forall blank_rune w3 -> Forall blank_rune w4 ->
  unmarshal_border F (encode w1 ++ itoa l ++ $"," ++ encode w2 ++ itoa t ++ $"," ++ encode w3 ++ itoa r ++ $"," ++ encode w4 ++ itoa b)
  = Some (quad_val VInt {| QLeft := l; QTop := t; QRight := r; QBottom := b |}).
Proof. exact border_round_trip. Qed.
Print Assumptions C20_border_round_trip.
Theorem C20_padding_round_trip : forall F (convert_float : bytes -> option F) l t r b w1 w2 w3 w4 t1 t2 t3 t4,
  Forall blank_rune w1 -> Forall blank_rune w2 -> Forall blank_rune w3 -> Forall blank_rune w4 ->
  float_literal t1 -> float_literal t2 -> float_literal t3 -> float_literal t4 ->
  convert_float (encode t1) = Some l -> convert_float (encode t2) = Some t ->
  convert_float (encode t3) = Some r -> convert_float (encode t4) = Some b ->
  unmarshal_quad F convert_float
    (encode w1 ++ encode t1 ++ $"," ++ encode w2 ++ encode t2 ++ $"," ++ encode w3 ++ encode t3 ++ $"," ++ encode w4 ++ encode t4)
  = Some (quad_val VFloat {| QLeft := l; QTop := t; QRight := r; QBottom := b |}).
Proof. exact padding_round_trip. Qed.
Print Assumptions C20_padding_round_trip.
(** Fewer than four numbers: fewer than three commas. *)
Theorem C20_too_few : forall F (convert_float : bytes -> option F) s, (count_occ ascii_dec s ","%char < 3)%nat ->
  unmarshal_border F s = None /\ unmarshal_quad F convert_float s = None.
Proof. exact too_few. Qed.
Print Assumptions C20_too_few.
Example C20_example :
  unmarshal_border Z ($"1, -2,+3,	40") = Some (quad_val VInt (mkQuad 1 (-2) 3 40)%Z) /\
  unmarshal_quad Z sample_float ($"1, 2,3,40") = Some (quad_val VFloat (mkQuad 1 2 3 40)%Z) /\
  unmarshal_border Z ($"1,2,3") = None /\ unmarshal_border Z ($"1,2,3,9223372036854775808") = None /\
  float_literal (map N_of_ascii ($"-12.50e+3")).
Proof.
  repeat split; try (vm_compute; reflexivity).
  exists [45%N], (-1)%Z, [49%N; 50%N], [46%N; 53%N; 48%N], [101%N; 43%N; 51%N].
  split; [reflexivity|]. split; [right; auto|]. split; [discriminate|]. split; [repeat constructor; vm_compute; discriminate|].
  split; [right; exists [53%N; 48%N]; split; [reflexivity|repeat constructor; vm_compute; discriminate]|].
  right. exists 101%N, [43%N], 1%Z, [51%N]. split; [reflexivity|]. split; [auto|]. split; [left; auto|]. split; [discriminate|].
  repeat constructor; vm_compute; discriminate.
Qed.

(** C21: false. Whatever follows the fourth number is ignored. *)
Theorem C21_rejects_garbage_refuted :
  exists v garbage, garbage <> [] /\ unmarshal_border Z (v ++ garbage) <> None /\
    v = $"1,2,3,4" /\ garbage = $"abc,5".
Proof. exact trailing_garbage. Qed.
Print Assumptions C21_rejects_garbage_refuted.
(** What holds: accepted texts stay accepted, with the same value, whatever is appended that
    does not continue the last number. *)
Theorem C21_garbage_ignored : forall F l t r b garbage,
  in_int64 l -> in_int64 t -> in_int64 r -> in_int64 b ->
  Forall (fun x => valid_rune x = true) garbage -> not_digit_first garbage ->
  unmarshal_border F (itoa l ++ $"," ++ itoa t ++ $"," ++ itoa r ++ $"," ++ itoa b ++ encode garbage)
  = Some (quad_val VInt {| QLeft := l; QTop := t; QRight := r; QBottom := b |}).
Proof. exact garbage_ignored. Qed.
Print Assumptions C21_garbage_ignored.
