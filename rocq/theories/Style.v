(** Model of package style: types, UnmarshalStyle, DecodeMutator. *)
From Verif Require Import GoStr Utf8 Scan.

(** ** Types *)
Section Types.
Variable F : Type.   (* float64 *)

(** style/font.go:24-30 *)
Record Font := mkFont { Family : bytes; PointSize : F; FStyle : bytes; Weight : bytes; Decoration : bytes }.
(** style/box.go:10-29; Border uses int, Padding and Margin float64 *)
Record Quad (A : Type) := mkQuad { QLeft : A; QTop : A; QRight : A; QBottom : A }.
(** style/box.go:31-35 *)
Record Box := mkBox { Border : Quad Z; Padding : Quad F; Margin : Quad F }.
(** style/dim.go:3-9 *)
Record Dimension := mkDim { Width : F; Height : F; LineSpacing : F; OffsetX : F; OffsetY : F }.
(** style/align.go:20-23 *)
Record Align := mkAlign { HAlign : bytes; VAlign : bytes }.
(** style/color.go:11-13, 51-55 *)
Record RGB := mkRGB { R : Z; G : Z; B : Z }.
Record Color := mkColor { Foreground : RGB; TextColor : RGB; Background : RGB }.
(** style/style.go:3-11; Table and Draw have one field each (table.go:3-5, draw.go:3-5) *)
Record Styles := mkStyles {
  SFont : Font; SBox : Box; SDim : Dimension; ColumnWidth : F; SAlign : Align; SColor : Color; LineWidth : F }.
End Types.
Arguments mkFont {F}. Arguments Family {F}. Arguments PointSize {F}. Arguments FStyle {F}.
Arguments Weight {F}. Arguments Decoration {F}.
Arguments mkQuad {A}. Arguments QLeft {A}. Arguments QTop {A}. Arguments QRight {A}. Arguments QBottom {A}.
Arguments mkBox {F}. Arguments Border {F}. Arguments Padding {F}. Arguments Margin {F}.
Arguments mkDim {F}. Arguments Width {F}. Arguments Height {F}. Arguments LineSpacing {F}.
Arguments OffsetX {F}. Arguments OffsetY {F}.
Arguments mkStyles {F}. Arguments SFont {F}. Arguments SBox {F}. Arguments SDim {F}.
Arguments ColumnWidth {F}. Arguments SAlign {F}. Arguments SColor {F}. Arguments LineWidth {F}.

(** ** Reflection *)
(** The kinds of struct fields that occur below [Styles]; a struct type may implement
    Unmarshaler through its pointer type. *)
Inductive unmarshaler := UBorder | UQuadF | URGB.
Inductive rtype := TString | TFloat | TInt | TStruct (impl : option unmarshaler) (fs : list (bytes * rtype)).

Section Tree.
Local Notation tag s := ($ s).
Definition quad_type (elem : rtype) (u : unmarshaler) : rtype :=
  TStruct (Some u) [([], elem); ([], elem); ([], elem); ([], elem)].
Definition rgb_type : rtype := TStruct (Some URGB) [([], TInt); ([], TInt); ([], TInt)].
(** reflect.TypeOf(Styles{}): fields with their `style` tags, in declaration order
    (style/style.go:3-11 and the struct declarations cited above). *)
Definition styles_type : rtype := TStruct None [
  ([], TStruct None [($"font-family", TString); ($"font-point-size", TFloat); ($"font-style", TString);
                     ($"font-weight", TString); ($"font-decoration", TString)]);
  ([], TStruct None [($"border", quad_type TInt UBorder); ($"padding", quad_type TFloat UQuadF);
                     ($"margin", quad_type TFloat UQuadF)]);
  ([], TStruct None [($"width", TFloat); ($"height", TFloat); ($"line-spacing", TFloat);
                     ($"offset-x", TFloat); ($"offset-y", TFloat)]);
  ([], TStruct None [($"column-width", TFloat)]);
  ([], TStruct None [($"h-align", TString); ($"v-align", TString)]);
  ([], TStruct None [($"color", rgb_type); ($"text-color", rgb_type); ($"background-color", rgb_type)]);
  ([], TStruct None [($"line-width", TFloat)])].
End Tree.

Section Decode.
Variable F : Type.
(** strconv.ParseFloat(s, 64) and fmt's convertFloat, supplied from outside. *)
Variable parse_float convert_float : bytes -> option F.

(** A reflect.Value. *)
Inductive gval := VStr (s : bytes) | VFloat (f : F) | VInt (z : Z) | VStruct (fs : list gval).

Definition quad_val {A} (inj : A -> gval) (q : Quad A) : gval :=
  VStruct [inj (QLeft q); inj (QTop q); inj (QRight q); inj (QBottom q)].
Definition rgb_val (c : RGB) : gval := VStruct [VInt (R c); VInt (G c); VInt (B c)].

(** [Styles] as a reflect.Value and back. *)
Definition styles_val (s : Styles F) : gval :=
  let f := SFont s in let b := SBox s in let d := SDim s in let a := SAlign s in let c := SColor s in
  VStruct [
    VStruct [VStr (Family f); VFloat (PointSize f); VStr (FStyle f); VStr (Weight f); VStr (Decoration f)];
    VStruct [quad_val VInt (Border b); quad_val VFloat (Padding b); quad_val VFloat (Margin b)];
    VStruct [VFloat (Width d); VFloat (Height d); VFloat (LineSpacing d); VFloat (OffsetX d); VFloat (OffsetY d)];
    VStruct [VFloat (ColumnWidth s)];
    VStruct [VStr (HAlign a); VStr (VAlign a)];
    VStruct [rgb_val (Foreground c); rgb_val (TextColor c); rgb_val (Background c)];
    VStruct [VFloat (LineWidth s)]].

Definition val_styles (v : gval) : option (Styles F) :=
  match v with
  | VStruct [
      VStruct [VStr fa; VFloat ps; VStr fs; VStr fw; VStr fd];
      VStruct [VStruct [VInt b1; VInt b2; VInt b3; VInt b4];
               VStruct [VFloat p1; VFloat p2; VFloat p3; VFloat p4];
               VStruct [VFloat m1; VFloat m2; VFloat m3; VFloat m4]];
      VStruct [VFloat w; VFloat h; VFloat ls; VFloat ox; VFloat oy];
      VStruct [VFloat cw];
      VStruct [VStr ha; VStr va];
      VStruct [VStruct [VInt f1; VInt f2; VInt f3]; VStruct [VInt t1; VInt t2; VInt t3];
               VStruct [VInt g1; VInt g2; VInt g3]];
      VStruct [VFloat lw]] =>
      Some (mkStyles (mkFont fa ps fs fw fd)
              (mkBox (mkQuad b1 b2 b3 b4) (mkQuad p1 p2 p3 p4) (mkQuad m1 m2 m3 m4))
              (mkDim w h ls ox oy) cw (mkAlign ha va)
              (mkColor (mkRGB f1 f2 f3) (mkRGB t1 t2 t3) (mkRGB g1 g2 g3)) lw)
  | _ => None
  end.

Fixpoint set_nth {A} (l : list A) (i : nat) (f : A -> option A) : option (list A) :=
  match l, i with
  | [], _ => None
  | x :: l', O => match f x with Some y => Some (y :: l') | None => None end
  | x :: l', S i' => match set_nth l' i' f with Some r => Some (x :: r) | None => None end
  end.
(** The closure at style/decode.go:107-113: walk down with rVal.Field and set. [None] is a
    reflect panic. *)
Fixpoint set_path (path : list nat) (x : gval) (v : gval) : option gval :=
  match path with
  | [] => Some x
  | i :: path' =>
      match v with
      | VStruct fs => match set_nth fs i (set_path path' x) with Some fs' => Some (VStruct fs') | None => None end
      | _ => None
      end
  end.

(** ** UnmarshalStyle *)
(** style/box.go:37-43 *)
Definition unmarshal_border (v : bytes) : option gval :=
  match scan4 scan_int v with
  | Some (a, b, c, d) => Some (VStruct [VInt a; VInt b; VInt c; VInt d]) | None => None end.
(** style/box.go:45-59, Padding and Margin *)
Definition unmarshal_quad (v : bytes) : option gval :=
  match scan4 (scan_float F convert_float) v with
  | Some (a, b, c, d) => Some (VStruct [VFloat a; VFloat b; VFloat c; VFloat d]) | None => None end.
(** style/color.go:34-49. [int(uint(n >> 16))] is not reduced to a byte, the other two are. *)
Definition unmarshal_rgb (v : bytes) : option RGB :=
  let s := if has_prefix ($"#") v then tl v else v in
  if Nat.eqb (List.length s) 6 then
    match parse_hex 0 s with
    | None => None
    | Some n => Some (mkRGB (Z.of_N (n / 65536)) (Z.of_N ((n / 256) mod 256)) (Z.of_N (n mod 256)))
    end
  else None.
Definition unmarshal (u : unmarshaler) (v : bytes) : option gval :=
  match u with
  | UBorder => unmarshal_border v
  | UQuadF => unmarshal_quad v
  | URGB => match unmarshal_rgb v with Some c => Some (rgb_val c) | None => None end
  end.

(** style/decode.go:128-161 makeSetValueFnc, for the kinds that occur. *)
Definition make_set_value (t : rtype) (v : bytes) : option gval :=
  match t with
  | TString => Some (VStr v)
  | TFloat => match parse_float v with Some f => Some (VFloat f) | None => None end
  | TInt => match parse_int64 v with Some z => Some (VInt z) | None => None end
  | TStruct _ _ => None                                (* unsupported style kind *)
  end.

Inductive found := Found (path : list nat) (x : gval) | NotFound | Error.

(** style/decode.go:84-126 makeMutateFnc; [path] is indexPath, [i] the field index. *)
Fixpoint make_mutate (t : rtype) (key v : bytes) (path : list nat) : found :=
  match t with
  | TStruct _ fs =>
      (fix fields (i : nat) (l : list (bytes * rtype)) : found :=
         match l with
         | [] => NotFound                                                   (* :125 *)
         | (tag, ft) :: l' =>
             let curr := path ++ [i] in                                     (* :87 *)
             if beqb tag key then                                           (* :88 *)
               let x := match ft with
                        | TStruct (Some u) _ => unmarshal u v               (* :90-98 *)
                        | _ => make_set_value ft v                          (* :99-105 *)
                        end in
               match x with Some x => Found curr x | None => Error end      (* :107-113 *)
             else
               match ft with
               | TStruct _ _ =>                                             (* :116 *)
                   match make_mutate ft key v curr with
                   | NotFound => fields (S i) l'
                   | r => r                                                 (* :118-122 *)
                   end
               | _ => fields (S i) l'
               end
         end) O fs
  | _ => NotFound
  end.

(** ** DecodeMutator *)
(** Go map[string]string as an association list with distinct keys. *)
Definition rawmap := list (bytes * bytes).
Fixpoint map_set {A} (k : bytes) (v : A) (m : list (bytes * A)) : list (bytes * A) :=
  match m with
  | [] => [(k, v)]
  | (k', v') :: m' => if beqb k' k then (k, v) :: m' else (k', v') :: map_set k v m'
  end.
Fixpoint map_get {A} (k : bytes) (m : list (bytes * A)) : option A :=
  match m with
  | [] => None
  | (k', v) :: m' => if beqb k' k then Some v else map_get k m'
  end.

Definition semicolon : ascii := ";"%char.
Definition colon : ascii := ":"%char.

(** style/decode.go:17-32 parseRaw; the loop over the declarations. *)
Fixpoint parse_raw_go (m : rawmap) (l : list bytes) : option rawmap :=
  match l with
  | [] => Some m
  | d :: l' =>
      let d := trim is_ws d in                                              (* :21 *)
      match d with
      | [] => parse_raw_go m l'                                             (* :22-24 *)
      | _ => match split_byte colon d with
             | [k; v] => parse_raw_go (map_set (trim is_ws k) (trim is_ws v) m) l'   (* :29 *)
             | _ => None                                                    (* :26-28 *)
             end
      end
  end.
Definition parse_raw (s : bytes) : option rawmap := parse_raw_go [] (split_byte semicolon s).

(** style/decode.go:42-50: a mutator is the list of its assignments. *)
Definition mutator := list (list nat * gval).

(** style/decode.go:71-80: the loop over the map, in the order [l]. *)
Fixpoint build_mutator (l : rawmap) : option mutator :=
  match l with
  | [] => Some []
  | (k, v) :: l' =>
      match make_mutate styles_type k v [] with
      | Error => None
      | NotFound => build_mutator l'
      | Found p x => match build_mutator l' with Some m => Some ((p, x) :: m) | None => None end
      end
  end.

(** style/decode.go:58-82 DecodeMutator. [shuffle] is the iteration order of the map; the
    reader is given by its contents (a read error makes DecodeMutator fail; all readers in
    xpdf are in-memory buffers). *)
Definition decode_mutator (shuffle : rawmap -> rawmap) (s : bytes) : option mutator :=
  match parse_raw s with
  | None => None
  | Some m => build_mutator (shuffle m)
  end.

(** style/decode.go:52-56 Mutate. [None] is a panic. *)
Fixpoint mutate (m : mutator) (s : Styles F) : option (Styles F) :=
  match m with
  | [] => Some s
  | (p, x) :: m' =>
      match set_path p x (styles_val s) with
      | None => None
      | Some v => match val_styles v with Some s' => mutate m' s' | None => None end
      end
  end.

(** style/decode.go:46-50 Append *)
Definition mutator_append (m other : mutator) : mutator := m ++ other.
End Decode.
Arguments VStr {F}. Arguments VFloat {F}. Arguments VInt {F}. Arguments VStruct {F}.
Arguments Found {F}. Arguments NotFound {F}. Arguments Error {F}.
Arguments styles_val {F}. Arguments val_styles {F}. Arguments set_path {F}. Arguments mutate {F}.
Arguments quad_val {F A}. Arguments rgb_val {F}.
