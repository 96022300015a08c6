(** Model of hyphenation/pattern.go. *)
From Verif Require Import GoStr GoFmt Utf8.

(** hyphenation/pattern.go:14-17. Weights are parsed digits, so [nat] suffices. *)
Record pattern := mkPattern { letters : list N; weights : list nat }.

Inductive parse_error := ErrDigit | ErrLength.
Inductive result (A : Type) := Ok (a : A) | Err (e : parse_error).
Arguments Ok {A}. Arguments Err {A}.

(** hyphenation/pattern.go:38-47 pattern.String. [%d] and [%c]. *)
Fixpoint pattern_string_go (ls : list N) (ws : list nat) : bytes :=
  match ws with
  | [] => []
  | w :: ws' =>
      itoa_N (N.of_nat w) ++
      match ls with
      | l :: ls' => encode_rune l ++ pattern_string_go ls' ws'
      | [] => pattern_string_go [] ws'
      end
  end.
Definition pattern_string (p : pattern) : bytes := pattern_string_go (letters p) (weights p).

Section Digits.
(** unicode.IsDigit on runes above U+00FF (category Nd), supplied from outside; on Latin-1
    it is '0'..'9'. *)
Variable ext_digit : N -> bool.
Definition is_ascii_digit (r : N) : bool := ((48 <=? r) && (r <=? 57))%N.
Definition is_digit (r : N) : bool :=
  if (r <? 256)%N then is_ascii_digit r else ext_digit r.

(** strconv.ParseInt(string(r), 10, 8) of a one-rune string: only 0-9 is a number. *)
Definition parse_digit (r : N) : option nat :=
  if is_ascii_digit r then Some (N.to_nat (r - 48)) else None.

(** hyphenation/pattern.go:52-70, the loop over the runes; [ls], [ws] are p.Letters and
    p.Weights so far, reversed. *)
Fixpoint parse_loop (want : bool) (ls : list N) (ws : list nat) (rs : list N)
  : result (bool * list N * list nat) :=
  match rs with
  | [] => Ok (want, ls, ws)
  | r :: rs' =>
      if want then
        if is_digit r then                                    (* :54 *)
          match parse_digit r with
          | None => Err ErrDigit                              (* :56-58 *)
          | Some w => parse_loop false ls (w :: ws) rs'       (* :59-60 *)
          end
        else parse_loop true (r :: ls) (O :: ws) rs'          (* :62-64 *)
      else parse_loop true (r :: ls) ws rs'                   (* :67-68 *)
  end.

(** hyphenation/pattern.go:49-78 parsePattern. *)
Definition parse_pattern (s : bytes) : result pattern :=
  match parse_loop true [] [] (decode s) with
  | Err e => Err e
  | Ok (want, ls, ws) =>
      let ws := if want then O :: ws else ws in               (* :71-73 *)
      if S (List.length ls) =? List.length ws                 (* :74 *)
      then Ok (mkPattern (rev ls) (rev ws)) else Err ErrLength
  end.

(** patternLookup (hyphenation/pattern.go:19-27): a Go map; newest binding first. *)
Definition lookup := list (bytes * pattern).
(** hyphenation/pattern.go:33-36 find *)
Fixpoint find (pl : lookup) (key : bytes) : option pattern :=
  match pl with
  | [] => None
  | (k, p) :: pl' => if beqb k key then Some p else find pl' key
  end.

(** bufio.Scanner with ScanLines: lines end at LF; a last line without LF counts if it is
    not empty. *)
Fixpoint raw_lines (cur : bytes) (s : bytes) : list bytes :=
  match s with
  | [] => match cur with [] => [] | _ => [rev cur] end
  | c :: s' => if Ascii.eqb c lf then rev cur :: raw_lines [] s' else raw_lines (c :: cur) s'
  end.
(** bufio.ScanLines drops one CR before the end of line. *)
Definition drop_cr (l : bytes) : bytes :=
  match rev l with c :: l' => if Ascii.eqb c cr then rev l' else l | [] => l end.
(** bufio.MaxScanTokenSize = 64*1024: a line of that many bytes does not fit and stops the
    scan (Scan returns false; the error is only visible in scanner.Err). *)
Definition max_token : N := 65536.
Fixpoint scan_tokens (ls : list bytes) : list bytes :=
  match ls with
  | [] => []
  | l :: ls' => if (N.of_nat (List.length l) <? max_token)%N then drop_cr l :: scan_tokens ls' else []
  end.
Definition scan_lines (s : bytes) : list bytes := scan_tokens (raw_lines [] s).

(** hyphenation/pattern.go:83-94, the loop of parsePatterns. *)
Fixpoint parse_lines (pl : lookup) (ls : list bytes) : result lookup :=
  match ls with
  | [] => Ok pl
  | l :: ls' =>
      let line := trim is_ws l in                             (* :85 *)
      match line with
      | [] => parse_lines pl ls'                              (* :86-88 *)
      | _ =>
          match parse_pattern line with
          | Err e => Err e                                    (* :90-92 *)
          | Ok p => parse_lines ((encode (letters p), p) :: pl) ls'   (* :93 *)
          end
      end
  end.

(** hyphenation/pattern.go:80-96 parsePatterns, loadPatternLookup (29-31) and Load
    (hyphenation.go:20-26; the Hyphenator only wraps the lookup). The reader is given by
    the bytes it delivers before EOF or a read error: both end the scan in the same way
    because scanner.Err is never consulted. *)
Definition load (data : bytes) : result lookup := parse_lines [] (scan_lines data).
End Digits.
