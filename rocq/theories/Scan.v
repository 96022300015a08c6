(** Models of the parts of package fmt (scanning) and strconv used by style decoding.
    They describe Go's documented behaviour and the source of fmt/scan.go and
    strconv/atoi.go (Go 1.19); part of the trusted base. *)
From Verif Require Import GoStr Utf8.
Local Open Scope N_scope.

(** fmt's isSpace table; it is also the set of unicode.IsSpace. *)
Definition is_space (r : N) : bool :=
  between 9 r 13 || (r =? 32) || (r =? 133) || (r =? 160) || (r =? 5760) ||
  between 8192 r 8202 || (r =? 8232) || (r =? 8233) || (r =? 8239) || (r =? 8287) || (r =? 12288).

(** ss.SkipSpace with newlines not being space: [None] is the error "unexpected newline". *)
Fixpoint skip_space (rs : list N) : option (list N) :=
  match rs with
  | [] => Some []
  | r :: rs' =>
      if r =? 10 then None
      else if is_space r then skip_space rs'
      else Some rs
  end.

Definition is_dec (r : N) : bool := between 48 r 57.
Definition is_hex (r : N) : bool := is_dec r || between 97 r 102 || between 65 r 70.

(** ss.accept: move one rune of the set from the input to the token buffer. *)
Definition accept (ok : N -> bool) (st : bytes * list N) : option (bytes * list N) :=
  match snd st with
  | r :: rs => if ok r then Some ((fst st ++ [byte r])%list, rs) else None
  | [] => None
  end.
Definition try_accept ok st := match accept ok st with Some st' => st' | None => st end.
(** for s.accept(ok) {} *)
Fixpoint accept_many_go (ok : N -> bool) (buf : bytes) (rs : list N) : bytes * list N :=
  match rs with
  | r :: rs' => if ok r then accept_many_go ok (buf ++ [byte r])%list rs' else (buf, rs)
  | [] => (buf, [])
  end.
Definition accept_many ok (st : bytes * list N) := accept_many_go ok (fst st) (snd st).

Definition is_sign (r : N) : bool := (r =? 43) || (r =? 45).
Definition is2 (a b : N) (r : N) : bool := (r =? a) || (r =? b).

(** Value of a string of decimal digits. *)
Definition digits_value (ds : bytes) : N :=
  fold_left (fun acc c => acc * 10 + (N_of_ascii c - 48)) ds 0.

(** strconv.ParseInt(tok, 10, 64) on a token of the form [+-]digits with at least one
    digit; [None] is a range error. *)
Definition parse_int64 (tok : bytes) : option Z :=
  let '(neg, ds) :=
    match tok with
    | c :: t => if N_of_ascii c =? 45 then (true, t) else if N_of_ascii c =? 43 then (false, t) else (false, tok)
    | [] => (false, tok)
    end in
  let v := Z.of_N (digits_value ds) in
  let z := if neg then Z.opp v else v in
  if (-(2 ^ 63) <=? z)%Z && (z <? 2 ^ 63)%Z then Some z else None.

(** ss.scanInt for verb %d. SkipSpace is called by doScanf and again here; the second call
    does nothing. *)
Definition scan_int (rs : list N) : option (Z * list N) :=
  match skip_space rs with
  | None => None
  | Some rs =>
      let st := try_accept is_sign ([], rs) in
      match accept is_dec st with
      | None => None                                     (* "expected integer" or EOF *)
      | Some st =>
          let '(tok, rest) := accept_many is_dec st in
          match parse_int64 tok with Some z => Some (z, rest) | None => None end
      end
  end.

(** a && b && c over accept: the runes taken before the first failure stay in the buffer. *)
Definition accept3 (a b c : N -> bool) (st : bytes * list N) : bool * (bytes * list N) :=
  match accept a st with
  | None => (false, st)
  | Some s1 => match accept b s1 with
               | None => (false, s1)
               | Some s2 => match accept c s2 with None => (false, s2) | Some s3 => (true, s3) end
               end
  end.

(** ss.floatToken *)
Definition float_token (rs : list N) : bytes * list N :=
  let '(nan, st) := accept3 (is2 110 78) (is2 97 65) (is2 110 78) ([], rs) in
  if nan then st else
  let st := try_accept is_sign st in
  let '(inf, st) := accept3 (is2 105 73) (is2 110 78) (is2 102 70) st in
  if inf then st else
  let '(digits, exp, st) :=
    match accept (fun r => r =? 48) st with
    | None => (is_dec, (fun r => is2 101 69 r || is2 112 80 r), st)
    | Some s1 => match accept (is2 120 88) s1 with
                 | Some s2 => (is_hex, is2 112 80, s2)
                 | None => (is_dec, (fun r => is2 101 69 r || is2 112 80 r), s1)
                 end
    end in
  let ds := fun r => digits r || (r =? 95) in
  let st := accept_many ds st in
  let st := match accept (fun r => r =? 46) st with Some s1 => accept_many ds s1 | None => st end in
  match accept exp st with
  | Some s1 => accept_many (fun r => is_dec r || (r =? 95)) (try_accept is_sign s1)
  | None => st
  end.

Section Float.
Variable F : Type.
(** ss.convertFloat (strconv.ParseFloat plus the 1.2p4 notation), supplied from outside. *)
Variable convert_float : bytes -> option F.

(** scanOne for a *float64 *)
Definition scan_float (rs : list N) : option (F * list N) :=
  match skip_space rs with
  | None => None
  | Some [] => None                                      (* notEOF *)
  | Some rs =>
      let '(tok, rest) := float_token rs in
      match convert_float tok with Some f => Some (f, rest) | None => None end
  end.
End Float.

(** The literal ',' of the format. *)
Definition scan_comma (rs : list N) : option (list N) :=
  match rs with r :: rs' => if r =? 44 then Some rs' else None | [] => None end.

(** fmt.Fscanf(r, "%x,%x,%x,%x", ...) with the element scanner [scan]; what follows the
    fourth element is not looked at. *)
Definition scan4 {A} (scan : list N -> option (A * list N)) (s : bytes) : option (A * A * A * A) :=
  match scan (decode s) with
  | None => None
  | Some (a, r1) =>
  match scan_comma r1 with None => None | Some r1 =>
  match scan r1 with
  | None => None
  | Some (b, r2) =>
  match scan_comma r2 with None => None | Some r2 =>
  match scan r2 with
  | None => None
  | Some (c, r3) =>
  match scan_comma r3 with None => None | Some r3 =>
  match scan r3 with
  | None => None
  | Some (d, _) => Some (a, b, c, d)
  end end end end end end end.

(** strconv.ParseUint(s, 16, 32) on a string of at most six bytes: [None] unless all bytes
    are hexadecimal digits (the range cannot be exceeded). *)
Definition hex_digit (c : ascii) : option N :=
  let b := N_of_ascii c in
  if between 48 b 57 then Some (b - 48)
  else if between 97 b 102 then Some (b - 87)
  else if between 65 b 70 then Some (b - 55)
  else None.
Fixpoint parse_hex (acc : N) (s : bytes) : option N :=
  match s with
  | [] => Some acc
  | c :: s' => match hex_digit c with Some d => parse_hex (acc * 16 + d) s' | None => None end
  end.
