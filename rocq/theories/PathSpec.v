(** Specification of paths: where a path leads, and which paths are in normal form. *)
From Verif Require Import GoStr.

(** The elements of a path are the pieces between its slashes. *)
Definition elements (p : bytes) : list bytes := split_byte "/"%char p.
Definition absolute (p : bytes) : Prop := exists q, p = "/"%char :: q.

(** A directory is named by the list of names leading to it from the root. [goto d es] is where the
    elements [es] lead from [d]. *)
Fixpoint goto (d : list bytes) (es : list bytes) : list bytes :=
  match es with
  | [] => d
  | e :: es' => goto (if beqb e ($"") then d else if beqb e ($".") then d
                      else if beqb e ($"..") then removelast d else d ++ [e]) es'
  end.
(** Where a path leads from the directory [d]. *)
Definition leads (d : list bytes) (p : bytes) : list bytes :=
  match p with c :: _ => if Ascii.eqb c "/"%char then goto [] (elements p) else goto d (elements p) | [] => d end.

(** A name of a file or directory *)
Definition name (e : bytes) : Prop := e <> $"" /\ e <> $"." /\ e <> $".." /\ ~ In "/"%char e.

(** Normal form: "/" and names, or ".." elements followed by names, or ".". *)
Definition normal_abs (p : bytes) : Prop :=
  exists names, p = "/"%char :: str_join ($"/") names /\ Forall name names.
Definition normal_rel (p : bytes) : Prop :=
  p = $"." \/ exists k names, (0 < k + List.length names)%nat /\
    p = str_join ($"/") (repeat ($"..") k ++ names) /\ Forall name names.

(** The directory part of a path is empty or ends with a slash. *)
Definition dir_part (d : bytes) : Prop := d = [] \/ exists d', d = d' ++ ["/"%char].
