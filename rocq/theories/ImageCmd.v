(** Model of the command cmd/image, and of the verb %q of package fmt (strconv.Quote of Go 1.19). *)
From Verif Require Import GoStr GoFmt Utf8 Json.
Local Open Scope nat_scope.

Section Quote.
Variable is_print : N -> bool.        (* strconv.IsPrint *)
(** strconv/quote.go:129-131, the loop writing [n] hexadecimal digits *)
Fixpoint hex_digits (n : nat) (r : N) : bytes :=
  match n with O => [] | S n' => hex_digits n' (r / 16) ++ [hex (r mod 16)] end.
(** strconv/quote.go appendEscapedRune with the quote [""""] and neither ASCIIonly nor graphicOnly.
    The runes come from decoding, so that the case of an invalid rune is left out. *)
Definition quote_rune (r : N) : bytes :=
  (if (r =? 34) || (r =? 92) then backslash :: encode_rune r
   else if is_print r then encode_rune r
   else if r =? 7 then backslash :: $"a" else if r =? 8 then backslash :: $"b" else if r =? 12 then backslash :: $"f"
   else if r =? 10 then backslash :: $"n" else if r =? 13 then backslash :: $"r" else if r =? 9 then backslash :: $"t"
   else if r =? 11 then backslash :: $"v"
   else if (r <? 32) || (r =? 127) then backslash :: $"x" ++ hex_digits 2 r
   else if r <? 65536 then backslash :: $"u" ++ hex_digits 4 r
   else backslash :: $"U" ++ hex_digits 8 r)%N.
(** strconv/quote.go appendQuotedWith: an invalid byte is decoded as U+FFFD of one byte *)
Fixpoint quote_go (skip : nat) (s : bytes) : bytes :=
  match s with
  | [] => []
  | c :: s' =>
      match skip with
      | S k => quote_go k s'
      | O => let '(r, k) := decode_first c s' in
             (if (k =? 0) && (r =? rune_error)%N then backslash :: $"x" ++ hex_digits 2 (N_of_ascii c) else quote_rune r) ++ quote_go k s'
      end
  end.
Definition go_quote (s : bytes) : bytes := quote :: quote_go 0 s ++ [quote].

Variable open_error : bytes -> option bytes.                        (* os.Open: the error *)
Variable decode_config : bytes -> (Z * Z * bytes) + bytes.          (* image.DecodeConfig of the file: width, height and format, or the error *)
(** cmd/image/main.go:13-34 main: the exit code and what is printed; [args] are the arguments
    after the command's name *)
Definition image_main (args : list bytes) : nat * bytes :=
  match args with
  | [] => (1, $"usage: image <src>" ++ [lf])
  | src :: _ =>
      match open_error src with
      | Some err => (2, $"ERROR: open source: " ++ err ++ [lf])
      | None =>
          match decode_config src with
          | inr err => (2, $"ERROR: decode config: " ++ err ++ [lf])
          | inl (w, h, format) =>
              (0, $"Source: " ++ go_quote src ++ [lf] ++ $"Format: " ++ go_quote format ++ [lf] ++
                  $"Dim   : w=" ++ itoa w ++ $", h=" ++ itoa h ++ [lf])
          end
      end
  end.
End Quote.
