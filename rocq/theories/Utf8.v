(** UTF-8 as in Go's package unicode/utf8 and the language's string/rune conversions.
    Part of the trusted base: it models the Go specification ("Conversions to and from a
    string type", "For statements with range clause") and utf8.go of Go 1.19. *)
From Verif Require Import GoStr.
Local Open Scope N_scope.

Notation rune := N (only parsing).
Definition rune_error : rune := 65533.          (* U+FFFD *)

(** utf8.ValidRune *)
Definition valid_rune (r : rune) : bool := (r <? 55296) || ((57343 <? r) && (r <=? 1114111)).

Definition byte (n : N) : ascii := ascii_of_N n.

(** utf8.EncodeRune / string(r); surrogates and out-of-range runes are encoded as U+FFFD. *)
Definition encode_rune (r : rune) : bytes :=
  let r := if valid_rune r then r else rune_error in
  if r <? 128 then [byte r]
  else if r <? 2048 then [byte (192 + r / 64); byte (128 + r mod 64)]
  else if r <? 65536 then
    [byte (224 + r / 4096); byte (128 + (r / 64) mod 64); byte (128 + r mod 64)]
  else [byte (240 + r / 262144); byte (128 + (r / 4096) mod 64);
        byte (128 + (r / 64) mod 64); byte (128 + r mod 64)].

(** string([]rune) *)
Definition encode (rs : list rune) : bytes := flat_map encode_rune rs.

Definition between (lo b hi : N) : bool := (lo <=? b) && (b <=? hi).

(** Decoding one rune of a non-empty string [c :: s]: rune and number of bytes consumed
    after the first one. Invalid encodings give U+FFFD and consume one byte. *)
Definition decode_first (c : ascii) (s : bytes) : rune * nat :=
  let b0 := N_of_ascii c in
  let bad := (rune_error, O) in
  if b0 <? 128 then (b0, O)
  else if between 194 b0 223 then
    match s with
    | c1 :: _ =>
        let b1 := N_of_ascii c1 in
        if between 128 b1 191 then ((b0 - 192) * 64 + (b1 - 128), 1%nat) else bad
    | _ => bad
    end
  else if between 224 b0 239 then
    match s with
    | c1 :: c2 :: _ =>
        let b1 := N_of_ascii c1 in let b2 := N_of_ascii c2 in
        if between (if b0 =? 224 then 160 else 128) b1 (if b0 =? 237 then 159 else 191)
           && between 128 b2 191
        then ((b0 - 224) * 4096 + (b1 - 128) * 64 + (b2 - 128), 2%nat) else bad
    | _ => bad
    end
  else if between 240 b0 244 then
    match s with
    | c1 :: c2 :: c3 :: _ =>
        let b1 := N_of_ascii c1 in let b2 := N_of_ascii c2 in let b3 := N_of_ascii c3 in
        if between (if b0 =? 240 then 144 else 128) b1 (if b0 =? 244 then 143 else 191)
           && between 128 b2 191 && between 128 b3 191
        then ((b0 - 240) * 262144 + (b1 - 128) * 4096 + (b2 - 128) * 64 + (b3 - 128), 3%nat)
        else bad
    | _ => bad
    end
  else bad.

(** []rune(s), or the runes seen by [for _, r := range s]. [skip] counts the bytes of the
    current rune still to be passed over. *)
Fixpoint decode_go (skip : nat) (s : bytes) : list rune :=
  match s with
  | [] => []
  | c :: s' =>
      match skip with
      | S k => decode_go k s'
      | O => let '(r, k) := decode_first c s' in r :: decode_go k s'
      end
  end.
Definition decode (s : bytes) : list rune := decode_go 0 s.
