(** Property C107: what the command cmd/image prints. Proofs are in ImageCmdThms.v, the reader of
    quoted strings in ImageCmdSpec.v. *)
From Verif Require Import GoStr Utf8 PageSpec ImageCmd ImageCmdSpec ImageCmdThms.
Local Open Scope nat_scope.

(** C107: without argument the command prints its usage and exits with 1. If the file cannot be
    opened or is no image, it prints that error and exits with 2. Otherwise it prints three lines:
    its argument and the format as string literals of Go, from which they can be read back
    whatever bytes they have, and the width and the height; it exits with 0. *)
Theorem C107_image : forall is_print : N -> bool, is_print 10%N = false ->
  forall open_error decode_config args,
  let '(code, printed) := image_main is_print open_error decode_config args in
  match args with
  | [] => code = 1 /\ printed = $"usage: image <src>" ++ [lf]
  | src :: _ =>
      match open_error src, decode_config src with
      | Some err, _ => code = 2 /\ printed = $"ERROR: open source: " ++ err ++ [lf]
      | None, inr err => code = 2 /\ printed = $"ERROR: decode config: " ++ err ++ [lf]
      | None, inl (w, h, format) => code = 0 /\ exists q f dw dh,
          printed = ($"Source: " ++ q) ++ [lf] ++ ($"Format: " ++ f) ++ [lf] ++ ($"Dim   : w=" ++ dw ++ $", h=" ++ dh) ++ [lf] /\
          unquoted q = Some src /\ unquoted f = Some format /\ decimal w dw /\ decimal h dh /\
          ~ In lf q /\ ~ In lf f
      end
  end.
Proof. exact image_prints. Qed.
Print Assumptions C107_image.
(** Hence two different arguments are never printed alike. *)
Theorem C107_argument : forall is_print : N -> bool, is_print 10%N = false ->
  forall src src', go_quote is_print src = go_quote is_print src' -> src = src'.
Proof. exact quote_injective. Qed.
Print Assumptions C107_argument.

(** A file name with a quote, a backslash, a line feed, a bell, an invalid byte, an umlaut, a
    byte order mark (not printable) and an unassigned rune beyond U+FFFF. *)
Definition odd_name : bytes :=
  $"a""b\c" ++ [ascii_of_nat 10; ascii_of_nat 7; ascii_of_nat 1; ascii_of_nat 255] ++ encode_rune 228 ++ encode_rune 65279 ++ encode_rune 983039.
Definition printable (r : N) : bool := (negb (r <? 32) && negb (r =? 127) && negb (r =? 65279) && (r <? 65536))%N.
Example C107_printed :
  image_main printable (fun _ => None) (fun _ => inl (640%Z, 480%Z, $"png")) [odd_name] =
  (0, $"Source: ""a\""b\\c\n\a\x01\xff" ++ encode_rune 228 ++ $"\" ++ $"ufeff\U000effff""" ++ [lf] ++ $"Format: ""png""" ++ [lf] ++ $"Dim   : w=640, h=480" ++ [lf]).
Proof. vm_compute. reflexivity. Qed.
Example C107_read : unquoted (go_quote printable odd_name) = Some odd_name.
Proof. vm_compute. reflexivity. Qed.
(** Not every text is read: a bare line feed, text after the closing quote and unknown escapes are
    refused. *)
Example C107_refused : unquoted ($"""a" ++ [lf] ++ $"b""") = None /\ unquoted ($"""a""b") = None /\ unquoted ($"""\q""") = None /\ unquoted ($"""\x1g""") = None.
Proof. vm_compute. repeat split. Qed.
