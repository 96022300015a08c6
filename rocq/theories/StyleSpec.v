(** Independent specification of style decoding (C16-C21). *)
From Verif Require Import GoStr Utf8 Scan Style.

(** ** The style properties *)
Inductive prop :=
| font_family | font_point_size | font_style | font_weight | font_decoration
| border | padding | margin
| width | height | line_spacing | offset_x | offset_y
| column_width | h_align | v_align
| color | text_color | background_color | line_width.

Definition prop_name (p : prop) : bytes :=
  match p with
  | font_family => $"font-family" | font_point_size => $"font-point-size" | font_style => $"font-style"
  | font_weight => $"font-weight" | font_decoration => $"font-decoration"
  | border => $"border" | padding => $"padding" | margin => $"margin"
  | width => $"width" | height => $"height" | line_spacing => $"line-spacing"
  | offset_x => $"offset-x" | offset_y => $"offset-y" | column_width => $"column-width"
  | h_align => $"h-align" | v_align => $"v-align"
  | color => $"color" | text_color => $"text-color" | background_color => $"background-color"
  | line_width => $"line-width"
  end.

(** The value of a property, by the name of the struct field. *)
Definition prop_get {F} (p : prop) (s : Styles F) : gval F :=
  match p with
  | font_family => VStr (Family (SFont s)) | font_point_size => VFloat (PointSize (SFont s))
  | font_style => VStr (FStyle (SFont s)) | font_weight => VStr (Weight (SFont s))
  | font_decoration => VStr (Decoration (SFont s))
  | border => quad_val VInt (Border (SBox s)) | padding => quad_val VFloat (Padding (SBox s))
  | margin => quad_val VFloat (Margin (SBox s))
  | width => VFloat (Width (SDim s)) | height => VFloat (Height (SDim s))
  | line_spacing => VFloat (LineSpacing (SDim s))
  | offset_x => VFloat (OffsetX (SDim s)) | offset_y => VFloat (OffsetY (SDim s))
  | column_width => VFloat (ColumnWidth s)
  | h_align => VStr (HAlign (SAlign s)) | v_align => VStr (VAlign (SAlign s))
  | color => rgb_val (Foreground (SColor s)) | text_color => rgb_val (TextColor (SColor s))
  | background_color => rgb_val (Background (SColor s))
  | line_width => VFloat (LineWidth s)
  end.

Section Values.
Variable F : Type.
Variables parse_float convert_float : bytes -> option F.

(** How the value text of a property is read; [None]: not acceptable. *)
Definition prop_value (p : prop) (v : bytes) : option (gval F) :=
  match p with
  | font_family | font_style | font_weight | font_decoration | h_align | v_align => Some (VStr v)
  | border => option_map (fun '(a, b, c, d) => quad_val VInt (mkQuad a b c d)) (scan4 scan_int v)
  | padding | margin =>
      option_map (fun '(a, b, c, d) => quad_val VFloat (mkQuad a b c d)) (scan4 (scan_float F convert_float) v)
  | color | text_color | background_color => option_map rgb_val (unmarshal_rgb v)
  | _ => option_map VFloat (parse_float v)
  end.
End Values.
Arguments prop_value {F}.

(** ** Declarations *)
(** The ';'-separated items of a style text. *)
Definition items (s : bytes) : list bytes := split_byte ";"%char s.
(** [t] is [s] without the blanks (space, carriage return, line feed, tabulator) around it. *)
Definition blank_char (c : ascii) : Prop := In (nat_of_ascii c) [32; 13; 10; 9].
Definition stripped (s t : bytes) : Prop :=
  (exists a b, s = a ++ t ++ b /\ Forall blank_char a /\ Forall blank_char b) /\
  (forall c r, t = c :: r -> ~ blank_char c) /\ (forall c r, t = r ++ [c] -> ~ blank_char c).
Definition blank_item (d : bytes) : Prop := Forall (fun c => is_ws c = true) d.
(** [d] is "key:value" up to blanks, with exactly one colon. *)
Definition declares (d k v : bytes) : Prop :=
  exists a b, d = a ++ ":"%char :: b /\ ~ In ":"%char a /\ ~ In ":"%char b /\ k = trim is_ws a /\ v = trim is_ws b.
(** The last declaration of [k] has value [v]. *)
Definition last_decl (l : list bytes) (k v : bytes) : Prop :=
  exists l1 d l2, l = l1 ++ d :: l2 /\ declares d k v /\
    forall d' v', In d' l2 -> ~ declares d' k v'.

(** ** Colours *)
(** The digit [c] stands for [n]. *)
Definition hex_value (c : ascii) (n : nat) : Prop :=
  nth_error ($"0123456789abcdef") n = Some c \/ nth_error ($"0123456789ABCDEF") n = Some c.
Definition pair_value (a b : nat) : Z := Z.of_nat (16 * a + b).
(** Two lower-case hexadecimal digits, as %02x prints a value below 256. *)
Definition hex2 (z : Z) : bytes :=
  let n := Z.to_nat z in
  [nth (n / 16) ($"0123456789abcdef") "0"%char; nth (n mod 16) ($"0123456789abcdef") "0"%char].
Definition show_rgb (c : RGB) : bytes := "#"%char :: hex2 (R c) ++ hex2 (G c) ++ hex2 (B c).
Definition component (z : Z) : Prop := (0 <= z <= 255)%Z.

(** ** Quadruples *)
(** The code points of Unicode with the property White_Space. *)
Definition white_space (r : N) : Prop :=
  (9 <= r <= 13)%N \/ (8192 <= r <= 8202)%N \/ In r [32; 133; 160; 5760; 8232; 8233; 8239; 8287; 12288]%N.
(** White space other than a line feed. *)
Definition blank_rune (r : N) : Prop := white_space r /\ r <> 10%N.
Definition dec_digit (r : N) : Prop := (48 <= r <= 57)%N.
Fixpoint dec_value (ds : list N) : Z :=
  match ds with
  | [] => 0
  | d :: ds' => (Z.of_N d - 48) * 10 ^ Z.of_nat (List.length ds') + dec_value ds'
  end%Z.
Definition in_int64 (z : Z) : Prop := (- 2 ^ 63 <= z < 2 ^ 63)%Z.
Definition sign_of (t : list N) (k : Z) : Prop := (t = [] \/ t = [43%N]) /\ k = 1%Z \/ t = [45%N] /\ k = (-1)%Z.
(** [t] is an optional sign and decimal digits, and denotes [z]. *)
Definition int_token (t : list N) (z : Z) : Prop :=
  exists s k ds, t = s ++ ds /\ sign_of s k /\ ds <> [] /\ Forall dec_digit ds /\ z = (k * dec_value ds)%Z.
(** [t] is a decimal number: sign, digits, fraction, exponent. *)
Definition float_literal (t : list N) : Prop :=
  exists s k ip fr ex, t = s ++ ip ++ fr ++ ex /\ sign_of s k /\ ip <> [] /\ Forall dec_digit ip /\
    (fr = [] \/ exists ds, fr = 46%N :: ds /\ Forall dec_digit ds) /\
    (ex = [] \/ exists e s' k' ds, ex = e :: s' ++ ds /\ (e = 101 \/ e = 69)%N /\ sign_of s' k' /\ ds <> [] /\ Forall dec_digit ds).
Definition not_digit_first (rs : list N) : Prop := match rs with [] => True | r :: _ => ~ dec_digit r end.
(** Four elements, each after blanks, separated by single commas, then [rest]. *)
Definition four {A} (tok : list N -> A -> Prop) (rs : list N) (a b c d : A) (rest : list N) : Prop :=
  exists w1 t1 w2 t2 w3 t3 w4 t4,
    rs = w1 ++ t1 ++ [44%N] ++ w2 ++ t2 ++ [44%N] ++ w3 ++ t3 ++ [44%N] ++ w4 ++ t4 ++ rest /\
    Forall blank_rune w1 /\ Forall blank_rune w2 /\ Forall blank_rune w3 /\ Forall blank_rune w4 /\
    tok t1 a /\ tok t2 b /\ tok t3 c /\ tok t4 d.
