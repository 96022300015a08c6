(** What DecodeClasses and Load print (style/class.go:97). *)
From Verif Require Import GoStr Utf8 Scan Num Style Class Instr Xml Load.
Local Open Scope nat_scope.

Section Out.
Variable F : Type.
Variables parse_float convert_float : bytes -> option F.

(** style/class.go:86-100: the line printed when the rule [name] is stored in the classes [cs]. *)
Definition rule_said (name : bytes) (cs : Classes F) : bytes :=
  match index_byte colon name with                                     (* :88 *)
  | Some (S i) =>                                                      (* :89 *)
      let className := firstn (S i) name in                            (* :90 *)
      let selName := skipn (S (S i)) name in                           (* :91 *)
      match map_get className cs with                                  (* :92 *)
      | Some _ => $"added selector (" ++ selName ++ $") to class (" ++ className ++ $") " ++ [lf]   (* :97 *)
      | None => []
      end
  | _ => []
  end.

Variable shuffle : nat -> rawmap -> rawmap.
(** style/class.go:67-111 as [decode_classes_go] in Class.v, with what is printed. *)
Fixpoint decode_classes_out_go (fuel : nat) (s : bytes) (pos : nat) (cs : Classes F) : cres F * bytes :=
  match fuel with
  | O => (CFuel, [])
  | S fuel' =>
  match slice s pos (List.length s) with                               (* :68 *)
  | None => (CPanic, [])
  | Some curr =>
  match index_byte "{"%char curr with                                  (* :69 *)
  | None => (COk cs, [])                                               (* :70-72 *)
  | Some i =>
  match slice curr 0 i with                                            (* :73 *)
  | None => (CPanic, [])
  | Some head =>
  let name := trim is_ws head in
  match name with
  | [] => (CErr, [])                                                   (* :74-76 *)
  | _ =>
  match slice curr i (List.length curr) with                           (* :77 *)
  | None => (CPanic, [])
  | Some from =>
  match index_byte "}"%char from with
  | None => (CErr, [])                                                 (* :78-80 *)
  | Some k =>
  let inn := k + i in                                                  (* :81 *)
  match slice curr (i + 1) inn with                                    (* :82 *)
  | None => (CPanic, [])
  | Some body =>
  match decode_mutator F parse_float convert_float (shuffle pos) body with
  | None => (CErr, [])                                                 (* :83-85 *)
  | Some mut =>
  match add_rule F name mut cs with
  | None => (CErr, [])
  | Some cs' =>
      let '(r, out) := decode_classes_out_go fuel' s (pos + (inn + 1)) cs' in    (* :110 *)
      (r, rule_said name cs ++ out)                                    (* :97 *)
  end end end end end end end end end end.
(** style/class.go:55-112 DecodeClasses with what it prints *)
Definition decode_classes_out (s : bytes) : cres F * bytes :=
  let s := blank_controls s in
  decode_classes_out_go (S (List.length s)) s 0 [].
End Out.

Section LoadOut.
Variable F : Num.
Variables parse_float convert_float : bytes -> option F.
Variable order : nat -> bool -> nat -> rawmap -> rawmap.
Variable sheet_order : nat -> rawmap -> rawmap.
(** xdoc/doc.go:13-24 Load with what it prints; only DecodeClasses prints. *)
Definition load_out (toks : list token) : lres F * bytes :=
  match decode_document F parse_float convert_float order toks with
  | Got doc _ =>
      let '(r, out) := decode_classes_out F parse_float convert_float sheet_order (doc_style F doc) in
      (match r with COk cs => LOk F doc cs | CErr => LErr F | CPanic => LPanic F | CFuel => LFuel F end, out)
  | Fail _ => (LErr F, [])
  | Fuel => (LFuel F, [])
  end.
End LoadOut.
