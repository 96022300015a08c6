(** Model of the parts of encoding/xml used by package xdoc: Decoder.Token, Skip, the stack of
    open elements, and what Decode does with struct fields (Go 1.19, encoding/xml/xml.go and
    read.go; part of the trusted base). *)
From Verif Require Import GoStr Utf8 Scan Class.

(** The tokens delivered by rawToken, that is before nesting is checked. Names are local names
    (documents without name space prefixes). [pos] is the position of the tag in the input; it
    is used only to tell apart the iteration orders of maps. Comments, processing instructions
    and directives are [TOther]. An element without contents (<br/>) yields start and end. *)
Definition attrs := list (bytes * bytes).
Inductive token := TStart (pos : nat) (name : bytes) (a : attrs) | TEnd (name : bytes) | TChar (data : bytes) | TOther.

(** Decoder: the tokens to come, and the stack. [Some n] is an open element (stkStart), [None]
    is the mark stkEOF. The tokens end where the input ends or where rawToken reports an error. *)
Record decoder := mkDec { d_toks : list token; d_stk : list (option bytes) }.

(** xml.go Decoder.Token, pushElement, popElement. [None] is an error. After an end tag that
    does not match, rawToken keeps returning the error, so no more tokens come. *)
Definition next (d : decoder) : option token * decoder :=
  match d_stk d with
  | None :: _ => (None, d)
  | _ =>
    match d_toks d with
    | [] => (None, d)
    | TStart pos n a :: r => (Some (TStart pos n a), mkDec r (Some n :: d_stk d))
    | TEnd n :: r =>
        match d_stk d with
        | Some m :: s => if beqb m n then (Some (TEnd n), mkDec r s) else (None, mkDec [] s)
        | _ => (None, mkDec [] [])
        end
    | t :: r => (Some t, mkDec r (d_stk d))
    end
  end.

(** xml.go pushEOF: below the innermost open element. (With no open element it would follow a
    nil pointer; it is called with a start element just read.) *)
Fixpoint push_eof (s : list (option bytes)) : list (option bytes) :=
  match s with
  | Some n :: s' => Some n :: None :: s'
  | None :: s' => None :: push_eof s'
  | [] => []
  end.
(** xml.go popEOF *)
Definition pop_eof (s : list (option bytes)) : bool * list (option bytes) :=
  match s with None :: s' => (true, s') | _ => (false, s) end.

(** The result of a decoding function: a value, an error, or fuel exhausted. The decoder is
    left in state [d]. *)
Inductive res (A : Type) := Got (a : A) (d : decoder) | Fail (d : decoder) | Fuel.
Arguments Got {A}. Arguments Fail {A}. Arguments Fuel {A}.

(** read.go unmarshalInterface: [f] is the UnmarshalXML method. *)
Definition unmarshal_interface {A} (f : decoder -> res A) (d : decoder) : res A :=
  match f (mkDec (d_toks d) (push_eof (d_stk d))) with
  | Fuel => Fuel
  | Fail d' => Fail (mkDec (d_toks d') (snd (pop_eof (d_stk d'))))
  | Got a d' => let '(ok, s) := pop_eof (d_stk d') in if ok then Got a (mkDec (d_toks d') s) else Fail (mkDec (d_toks d') s)
  end.

(** The loops that follow make at least one call of Token per step. *)
Definition enough (d : decoder) : nat := S (List.length (d_toks d)).

(** xml.go Skip *)
Fixpoint skip_go (fuel depth : nat) (d : decoder) : res unit :=
  match fuel with
  | O => Fuel
  | S fuel' =>
    match next d with
    | (None, d') => Fail d'
    | (Some (TStart _ _ _), d') => skip_go fuel' (S depth) d'
    | (Some (TEnd _), d') => match depth with O => Got tt d' | S k => skip_go fuel' k d' end
    | (Some _, d') => skip_go fuel' depth d'
    end
  end.
Definition skip (d : decoder) : res unit := skip_go (enough d) 0 d.

(** read.go unmarshal, the loop over the contents of a struct or string value: [field] says what
    to do for an element that is a field ([None]: no such field, skip it), [chars] collects
    character data. Any end tag ends the loop. *)
Section Fields.
Context {A : Type}.
Variable field : nat -> bytes -> attrs -> A -> option (decoder -> res A).
Variable chars : bytes -> A -> A.
Fixpoint fields_loop (fuel : nat) (acc : A) (d : decoder) : res A :=
  match fuel with
  | O => Fuel
  | S fuel' =>
    match next d with
    | (None, d') => Fail d'
    | (Some (TStart pos n a), d') =>
        match field pos n a acc with
        | Some f => match f d' with Got acc' d'' => fields_loop fuel' acc' d'' | r => r end
        | None => match skip d' with Got _ d'' => fields_loop fuel' acc d'' | Fail d'' => Fail d'' | Fuel => Fuel end
        end
    | (Some (TEnd _), d') => Got acc d'
    | (Some (TChar t), d') => fields_loop fuel' (chars t acc) d'
    | (Some TOther, d') => fields_loop fuel' acc d'
    end
  end.
End Fields.

Definition map_res {A B} (f : A -> B) (r : res A) : res B :=
  match r with Got a d => Got (f a) d | Fail d => Fail d | Fuel => Fuel end.
(** A string value: the character data directly inside. *)
Definition string_value (d : decoder) : res bytes :=
  fields_loop (fun _ _ _ _ => None) (fun t acc => acc ++ t) (enough d) [] d.

(** strings.TrimSpace *)
Fixpoint drop_spaces (l : list (N * bytes)) : list (N * bytes) :=
  match l with (r, b) :: l' => if is_space r then drop_spaces l' else l | [] => [] end.
Definition trim_space (s : bytes) : bytes :=
  List.concat (map snd (rev (drop_spaces (rev (drop_spaces (chunks s)))))).

(** strconv.ParseInt(s, 10, 64) *)
Definition parse_int (s : bytes) : option Z :=
  let ds := match s with c :: t => if is_sign (N_of_ascii c) then t else s | [] => [] end in
  match ds with
  | [] => None
  | _ => if forallb (fun c => is_dec (N_of_ascii c)) ds then parse_int64 s else None
  end.

(** read.go copyValue for a float64 *)
Definition float_value {F} (zero : F) (parse_float : bytes -> option F) (v : bytes) : option F :=
  match v with [] => Some zero | _ => parse_float (trim_space v) end.

(** The loop shared by the UnmarshalXML methods of xdoc: for { token, err := d.Token(); ... }
    until the end tag that equals start.End(). [on_start] handles a start element, [on_char]
    character data. *)
Section Loop.
Context {A : Type}.
Variable name : bytes.
Variable on_start : nat -> bytes -> attrs -> A -> decoder -> res A.
Variable on_char : bytes -> A -> A.
Fixpoint token_loop (fuel : nat) (acc : A) (d : decoder) : res A :=
  match fuel with
  | O => Fuel
  | S fuel' =>
    match next d with
    | (None, d') => Fail d'
    | (Some (TEnd n), d') => if beqb n name then Got acc d' else token_loop fuel' acc d'
    | (Some (TStart pos n a), d') =>
        match on_start pos n a acc d' with Got acc' d'' => token_loop fuel' acc' d'' | r => r end
    | (Some (TChar t), d') => token_loop fuel' (on_char t acc) d'
    | (Some TOther, d') => token_loop fuel' acc d'
    end
  end.
End Loop.
