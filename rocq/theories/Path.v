(** Model of the parts of Go's path/filepath (unix) that xpdf uses, of resolving file names, and of
    the command's choice of its output file. Package path/filepath itself is part of the trusted
    base: the model follows path.go of Go 1.19. *)
From Verif Require Import GoStr.

Definition slash : ascii := "/"%char.
Definition dot : ascii := "."%char.
Definition is_slash (c : ascii) : bool := Ascii.eqb c slash.

(** strings.TrimSuffix *)
Definition has_suffix (s suf : bytes) : bool := has_prefix (rev suf) (rev s).
Definition trim_suffix (s suf : bytes) : bytes :=
  if has_suffix s suf then firstn (List.length s - List.length suf) s else s.

(** filepath.Clean, the loop. [out] is the output buffer, last byte first, [dotdot] the number of
    bytes at its start that ".." must not remove. *)
Fixpoint drop_to_slash (dotdot : nat) (out : bytes) : bytes :=       (* out.w--; for out.w > dotdot && ... *)
  match out with
  | [] => []
  | c :: out' => if is_slash c then out' else if Nat.ltb dotdot (List.length out') then drop_to_slash dotdot out' else out'
  end.
(** Copies the bytes up to the next slash. *)
Fixpoint take_elem (path out : bytes) : bytes * bytes :=
  match path with
  | [] => ([], out)
  | c :: path' => if is_slash c then (path, out) else take_elem path' (c :: out)
  end.
Definition at_end (path : bytes) : bool := match path with [] => true | c :: _ => is_slash c end.
Fixpoint clean_loop (fuel : nat) (rooted : bool) (dotdot : nat) (path out : bytes) : option bytes :=
  match fuel, path with
  | _, [] => Some out
  | O, _ => None
  | S fuel', c :: path' =>
      if is_slash c then clean_loop fuel' rooted dotdot path' out
      else if Ascii.eqb c dot && at_end path' then clean_loop fuel' rooted dotdot path' out
      else if Ascii.eqb c dot && match path' with d :: path'' => Ascii.eqb d dot && at_end path'' | [] => false end then
        if Nat.ltb dotdot (List.length out) then clean_loop fuel' rooted dotdot (tl path') (drop_to_slash dotdot out)
        else if rooted then clean_loop fuel' rooted dotdot (tl path') out
        else let out' := dot :: dot :: (match out with [] => [] | _ => slash :: out end) in
             clean_loop fuel' rooted (List.length out') (tl path') out'
      else
        let out' := if rooted then (if Nat.eqb (List.length out) 1 then out else slash :: out)
                    else (match out with [] => [] | _ => slash :: out end) in
        let '(path'', out'') := take_elem path out' in clean_loop fuel' rooted dotdot path'' out''
  end.
(** filepath.Clean; [None] if the loop does not end, which does not happen (C74). *)
Definition clean (path : bytes) : option bytes :=
  match path with
  | [] => Some [dot]
  | c :: path' =>
      match (if is_slash c then clean_loop (S (List.length path)) true 1 path' [slash]
             else clean_loop (S (List.length path)) false 0 path []) with
      | None => None
      | Some [] => Some [dot]
      | Some out => Some (rev out)
      end
  end.
(** filepath.IsAbs *)
Definition is_abs (path : bytes) : bool := match path with c :: _ => is_slash c | [] => false end.
(** filepath.Join of two elements: the first non-empty one on, joined by slashes, cleaned *)
Definition join2 (a b : bytes) : option bytes :=
  match a, b with
  | [], [] => Some []
  | [], _ => clean b
  | _, _ => clean (a ++ slash :: b)
  end.
(** The bytes after the last slash, and those before with the slash. *)
Fixpoint after_slash_rev (r acc : bytes) : bytes * bytes :=     (* reversed path *)
  match r with [] => ([], acc) | c :: r' => if is_slash c then (r, acc) else after_slash_rev r' (c :: acc) end.
(** filepath.Base *)
Definition base (path : bytes) : bytes :=
  match path with
  | [] => [dot]
  | _ => match snd (after_slash_rev (trim_left is_slash (rev path)) []) with [] => [slash] | b => b end
  end.
(** filepath.Ext: from the last dot after the last slash *)
Fixpoint ext_rev (r acc : bytes) : bytes :=
  match r with
  | [] => []
  | c :: r' => if is_slash c then [] else if Ascii.eqb c dot then c :: acc else ext_rev r' (c :: acc)
  end.
Definition ext (path : bytes) : bytes := ext_rev (rev path) [].
(** filepath.Dir *)
Definition dir (path : bytes) : option bytes := clean (rev (fst (after_slash_rev (rev path) []))).

(** process.go:35-41 Processor.resolveFile *)
Definition resolve_file (working_dir name : bytes) : option bytes :=
  if is_abs name then Some name
  else match join2 working_dir name with Some rname => clean rname | None => None end.

(** cmd/xpdf/main.go:34-39, without the second argument *)
Definition default_output (input : bytes) : bytes := trim_suffix (base input) (ext input) ++ $".pdf".
