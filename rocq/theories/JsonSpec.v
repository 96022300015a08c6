(** Specification of descriptions dumped as JSON (C101): reading JSON. *)
From Verif Require Import GoStr Utf8 Num Describe.
Local Open Scope nat_scope.

(** ** A reader for JSON (without booleans and escaped surrogates) *)
Inductive json := JNull | JText (s : bytes) | JNumber (literal : bytes) | JArray (l : list json) | JObject (l : list (bytes * json)).
Inductive jtok := TNull | TText (s : bytes) | TNumber (literal : bytes) | TPunct (c : ascii).

Definition hex_value (c : ascii) : option N :=
  let n := N_of_ascii c in
  (if (48 <=? n) && (n <=? 57) then Some (n - 48) else if (97 <=? n) && (n <=? 102) then Some (n - 87)
   else if (65 <=? n) && (n <=? 70) then Some (n - 55) else None)%N.
Definition char_in (s : String.string) (c : ascii) : bool := existsb (Ascii.eqb c) ($ s).
Definition number_start : ascii -> bool := char_in "-0123456789".
Definition number_char : ascii -> bool := char_in "-+.eE0123456789".
Definition letter : ascii -> bool := char_in "abcdefghijklmnopqrstuvwxyz".
Definition white (c : ascii) : bool := Ascii.eqb c sp || Ascii.eqb c tab || Ascii.eqb c lf || Ascii.eqb c cr.
(** The character after a backslash; "u" is treated apart. *)
Definition escaped (c : ascii) : option ascii :=
  if Ascii.eqb c """"%char then Some """"%char else if Ascii.eqb c "\"%char then Some "\"%char else if Ascii.eqb c "/"%char then Some "/"%char
  else if Ascii.eqb c "b"%char then Some (ascii_of_nat 8) else if Ascii.eqb c "f"%char then Some (ascii_of_nat 12)
  else if Ascii.eqb c "n"%char then Some lf else if Ascii.eqb c "r"%char then Some cr else if Ascii.eqb c "t"%char then Some tab else None.

(** What is being read: nothing, a string (with what was read so far, backwards), the character
    after a backslash, the hexadecimal digits of a character, a number, a word. *)
Inductive mode := Out | InText (acc : bytes) | InEscape (acc : bytes) | InHex (digits : nat) (n : N) (acc : bytes) | InNumber (acc : bytes) | InWord (acc : bytes).
Definition emit_tok (t : jtok) (r : option (list jtok)) : option (list jtok) := option_map (cons t) r.
Definition word_tok (acc : bytes) : option jtok := if beqb (rev acc) ($"null") then Some TNull else None.
(** A character outside of strings, numbers and words: the mode after it and its token. *)
Definition outside (c : ascii) : option (mode * list jtok) :=
  if white c then Some (Out, [])
  else if Ascii.eqb c """"%char then Some (InText [], [])
  else if char_in "[]{},:" c then Some (Out, [TPunct c])
  else if number_start c then Some (InNumber [c], [])
  else if letter c then Some (InWord [c], [])
  else None.
Fixpoint jlex (m : mode) (s : bytes) : option (list jtok) :=
  match s with
  | [] =>
      match m with
      | Out => Some []
      | InNumber acc => Some [TNumber (rev acc)]
      | InWord acc => option_map (fun t => [t]) (word_tok acc)
      | _ => None
      end
  | c :: s' =>
      let out := match outside c with Some (m', ts) => option_map (app ts) (jlex m' s') | None => None end in
      match m with
      | Out => out
      | InText acc =>
          if Ascii.eqb c """"%char then emit_tok (TText (rev acc)) (jlex Out s')
          else if Ascii.eqb c "\"%char then jlex (InEscape acc) s'
          else if (N_of_ascii c <? 32)%N then None
          else jlex (InText (c :: acc)) s'
      | InEscape acc =>
          if Ascii.eqb c "u"%char then jlex (InHex 4 0 acc) s'
          else match escaped c with Some x => jlex (InText (x :: acc)) s' | None => None end
      | InHex digits n acc =>
          match hex_value c with
          | None => None
          | Some h =>
              let n' := (16 * n + h)%N in
              if digits =? 1 then if valid_rune n' then jlex (InText (rev (encode_rune n') ++ acc)) s' else None
              else jlex (InHex (digits - 1) n' acc) s'
          end
      | InNumber acc => if number_char c then jlex (InNumber (c :: acc)) s' else emit_tok (TNumber (rev acc)) out
      | InWord acc =>
          if letter c then jlex (InWord (c :: acc)) s'
          else match word_tok acc with Some t => emit_tok t out | None => None end
      end
  end.

(** The arrays and objects that are open, innermost first: what they hold so far, backwards, and
    the key of the value being read. *)
Inductive jframe := FArray (l : list json) | FObject (l : list (bytes * json)) (key : bytes).
(** What comes next: a value, a value or the end of an empty array, a key of the object with these
    members, a key or the end of an empty object, the colon after the key, or what follows a value. *)
Inductive next := Value | Value_or_end | Key (l : list (bytes * json)) | Key_or_end | Colon (l : list (bytes * json)) (key : bytes) | After (v : json).
Definition atom (t : jtok) : option json :=
  match t with TNull => Some JNull | TText s => Some (JText s) | TNumber n => Some (JNumber n) | TPunct _ => None end.
Definition punct (c : ascii) (t : jtok) : bool := match t with TPunct d => Ascii.eqb c d | _ => false end.
Fixpoint jnest (toks : list jtok) (nx : next) (stack : list jframe) : option json :=
  match toks with
  | [] => match nx, stack with After v, [] => Some v | _, _ => None end
  | t :: toks' =>
      let value := match atom t with
        | Some v => jnest toks' (After v) stack
        | None => if punct "["%char t then jnest toks' Value_or_end (FArray [] :: stack)
                  else if punct "{"%char t then jnest toks' Key_or_end stack else None
        end in
      match nx with
      | Value => value
      | Value_or_end => if punct "]"%char t then match stack with FArray [] :: stack' => jnest toks' (After (JArray [])) stack' | _ => None end else value
      | Key_or_end => match t with TText k => jnest toks' (Colon [] k) stack | _ => if punct "}"%char t then jnest toks' (After (JObject [])) stack else None end
      | Key l => match t with TText k => jnest toks' (Colon l k) stack | _ => None end
      | Colon l k => if punct ":"%char t then jnest toks' Value (FObject l k :: stack) else None
      | After v =>
          match stack with
          | FArray l :: stack' =>
              if punct ","%char t then jnest toks' Value (FArray (v :: l) :: stack')
              else if punct "]"%char t then jnest toks' (After (JArray (rev (v :: l)))) stack' else None
          | FObject l k :: stack' =>
              if punct ","%char t then jnest toks' (Key ((k, v) :: l)) stack'
              else if punct "}"%char t then jnest toks' (After (JObject (rev ((k, v) :: l)))) stack' else None
          | [] => None
          end
      end
  end.
Definition read_json (s : bytes) : option json := match jlex Out s with Some toks => jnest toks Value [] | None => None end.

(** The numbers of JSON: a run of these characters, beginning with a digit or minus sign. *)
Definition number_literal (s : bytes) : Prop :=
  match s with c :: s' => number_start c = true /\ Forall (fun c => number_char c = true) s' | [] => False end.

(** ** Descriptions as JSON *)
(** Invalid UTF-8 is replaced by U+FFFD. *)
Definition repaired (s : bytes) : bytes := encode (decode s).
(** Empty arrays and null stand for the same slices. *)
Fixpoint normal (j : json) : json :=
  match j with
  | JArray [] => JNull
  | JArray l => JArray (map normal l)
  | JObject l => JObject (map (fun kx => (fst kx, normal (snd kx))) l)
  | _ => j
  end.
Section Spec.
Context {F : Num}.
Variable format_json : F -> bytes.
Definition array (l : list json) : json := match l with [] => JNull | _ => JArray l end.
Definition jval_shown (j : jval F) : json := match j with JStr s => JText (repaired s) | JNum x => JNumber (format_json x) | JObj _ => JNull end.
Definition diff_shown (d : diff F) : json :=
  JObject [($"Path", JText (repaired (d_path d))); ($"Org", match d_org d with Some j => jval_shown j | None => JNull end); ($"Mod", jval_shown (d_mod d))].
Definition value_shown (v : value F) : json := match v with NoValue => JNull | StrValue s => JText (repaired s) | NumValue x => JNumber (format_json x) end.
Fixpoint item_shown (it : item F) : json :=
  match it with
  | mkItem n v ds items =>
      JObject [($"Name", JText (repaired n)); ($"Value", value_shown v); ($"StyleDiffs", array (map diff_shown ds)); ($"Items", array (map item_shown items))]
  end.
Definition description_shown (items : list (item F)) : json := JObject [($"Items", array (map item_shown items))].

(** The numbers of a description. *)
Definition jval_numbers (j : jval F) : list F := match j with JNum x => [x] | _ => [] end.
Definition diff_numbers (d : diff F) : list F := match d_org d with Some j => jval_numbers j | None => [] end ++ jval_numbers (d_mod d).
Definition value_numbers (v : value F) : list F := match v with NumValue x => [x] | _ => [] end.
Fixpoint item_numbers (it : item F) : list F :=
  match it with mkItem n v ds items => value_numbers v ++ flat_map diff_numbers ds ++ flat_map item_numbers items end.
Definition numbers (items : list (item F)) : list F := flat_map item_numbers items.
End Spec.
