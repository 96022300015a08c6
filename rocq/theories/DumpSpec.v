(** Specification of dumped descriptions (C96): reading XML. *)
From Verif Require Import GoStr Utf8 Num Describe.
Local Open Scope nat_scope.

(** ** A reader for XML without attributes *)
(** The references for characters and their meaning. *)
Definition references : list (bytes * ascii) :=
  [($"&amp;", "&"%char); ($"&lt;", "<"%char); ($"&gt;", ">"%char); ($"&#34;", """"%char); ($"&#39;", "'"%char);
   ($"&#x9;", tab); ($"&#xA;", lf); ($"&#xD;", cr)].
Fixpoint resolve_go (skip : nat) (s : bytes) : bytes :=
  match s with
  | [] => []
  | c :: s' =>
      match skip with
      | S k => resolve_go k s'
      | O => match find (fun e => has_prefix (fst e) s) references with
             | Some (e, x) => x :: resolve_go (List.length e - 1) s'
             | None => c :: resolve_go 0 s'
             end
      end
  end.
Definition resolve_refs (s : bytes) : bytes := resolve_go 0 s.

Inductive tok := Open (n : bytes) | Close (n : bytes) | Data (t : bytes).
Definition tag_of (s : bytes) : tok := match s with "/"%char :: n => Close n | n => Open n end.
(** [acc] is what was read since the last "<" or ">", backwards. *)
Fixpoint lex (tag : bool) (acc : bytes) (s : bytes) : option (list tok) :=
  match s with
  | [] => if tag then None else Some [Data (resolve_refs (rev acc))]
  | c :: s' =>
      if tag then
        if Ascii.eqb c ">"%char then
          option_map (cons (tag_of (rev acc))) (lex false [] s')
        else lex true (c :: acc) s'
      else if Ascii.eqb c "<"%char then option_map (cons (Data (resolve_refs (rev acc)))) (lex true [] s')
      else lex false (c :: acc) s'
  end.

(** An element with its text, or its children, between which there is only white space. *)
Inductive tree := Node (n : bytes) (text : bytes) (kids : list tree).
Definition blank (s : bytes) : bool := forallb (fun c => Ascii.eqb c sp || Ascii.eqb c lf) s.
(** The open elements, innermost first: name, text so far, children so far, backwards. *)
Definition frame : Type := bytes * bytes * list tree.
Definition close (f : frame) : option tree :=
  let '(n, t, ks) := f in
  match ks with [] => Some (Node n t []) | _ => if blank t then Some (Node n [] (rev ks)) else None end.
Fixpoint nest (toks : list tok) (stack : list frame) : option tree :=
  match toks, stack with
  | Data t :: toks', [] => if blank t then nest toks' [] else None
  | Data t :: toks', (n, t0, ks) :: st => nest toks' ((n, t0 ++ t, ks) :: st)
  | Open n :: toks', st => nest toks' ((n, [], []) :: st)
  | Close n :: toks', (m, t, ks) :: st =>
      if beqb n m then
        match close (m, t, ks), st with
        | Some k, [] => match toks' with [Data t'] => if blank t' then Some k else None | _ => None end
        | Some k, (m', t', ks') :: st' => nest toks' ((m', t', k :: ks') :: st')
        | None, _ => None
        end
      else None
  | _, _ => None
  end.
Definition read_xml (s : bytes) : option tree :=
  match lex false [] s with Some toks => nest toks [] | None => None end.

(** ** Descriptions as XML *)
(** The characters XML can express; others are replaced by U+FFFD. *)
Definition expressible (r : N) : Prop := (r = 9 \/ r = 10 \/ r = 13 \/ (32 <= r < 55296) \/ (57344 <= r < 65534) \/ (65536 <= r < 1114112))%N.
Definition legible_rune (r : N) : N :=
  (if (r =? 9) || (r =? 10) || (r =? 13) || ((32 <=? r) && (r <? 55296)) || ((57344 <=? r) && (r <? 65534)) || ((65536 <=? r) && (r <? 1114112)) then r else rune_error)%N.
Definition legible (s : bytes) : bytes := encode (map legible_rune (decode s)).

Section Spec.
Context {F : Num}.
Variable format_float : F -> bytes.
Definition leaf (n : String.string) (s : bytes) : tree := Node ($ n) (legible s) [].
Definition jtext (j : jval F) : bytes := match j with JStr s => s | JNum x => format_float x | JObj _ => [] end.
Definition diff_tree (d : diff F) : tree :=
  Node ($"StyleDiffs") [] (leaf "Path" (d_path d) :: match d_org d with Some j => [leaf "Org" (jtext j)] | None => [] end ++ [leaf "Mod" (jtext (d_mod d))]).
Definition value_tree (v : value F) : list tree :=
  match v with NoValue => [] | StrValue s => [leaf "Value" s] | NumValue x => [leaf "Value" (format_float x)] end.
Fixpoint item_tree (it : item F) : tree :=
  match it with
  | mkItem n v ds items => Node ($"Items") [] (leaf "Name" n :: value_tree v ++ map diff_tree ds ++ map item_tree items)
  end.
Definition description_tree (items : list (item F)) : tree := Node ($"Description") [] (map item_tree items).
End Spec.

(** Values without JSON objects, which XML cannot show. *)
Definition no_object {F : Num} (d : diff F) : Prop :=
  match d_org d with Some (JObj _) => False | _ => True end /\ match d_mod d with JObj _ => False | _ => True end.
Inductive no_objects {F : Num} : item F -> Prop :=
| NoObjects n v ds items : Forall no_object ds -> Forall no_objects items -> no_objects (mkItem n v ds items).
