(** Independent specification of whitespace normalisation (properties C01-C04).
    Nothing here refers to the model. *)
From Verif Require Import GoStr.

Definition blank (c : ascii) : Prop := c = sp \/ c = cr \/ c = lf \/ c = tab.
Definition blankb (c : ascii) : bool :=
  if ascii_dec c sp then true else if ascii_dec c cr then true
  else if ascii_dec c lf then true else if ascii_dec c tab then true else false.

(** The maximal blank-free words of [s], in order; [cur] is the word being read
    (reversed). *)
Fixpoint words_from (cur : bytes) (s : bytes) : list bytes :=
  match s with
  | [] => match cur with [] => [] | _ => [rev cur] end
  | c :: s' =>
      if blankb c
      then match cur with [] => words_from [] s' | _ => rev cur :: words_from [] s' end
      else words_from (c :: cur) s'
  end.
Definition words (s : bytes) : list bytes := words_from [] s.

(** Words joined by single spaces. *)
Fixpoint unwords (l : list bytes) : bytes :=
  match l with [] => [] | [w] => w | w :: l' => w ++ sp :: unwords l' end.

(** Delete every space whose left or right neighbour is a backslash; [prev] is the left
    neighbour in the original string. *)
Fixpoint drop_spaces_at_backslash (prev : option ascii) (s : bytes) : bytes :=
  match s with
  | [] => []
  | c :: s' =>
      let next := match s' with n :: _ => Some n | [] => None end in
      if ascii_dec c sp then
        if (match prev with Some p => if ascii_dec p bsl then true else false | None => false end)
           || (match next with Some n => if ascii_dec n bsl then true else false | None => false end)
        then drop_spaces_at_backslash (Some c) s'
        else c :: drop_spaces_at_backslash (Some c) s'
      else c :: drop_spaces_at_backslash (Some c) s'
  end.

Definition rectified_spec (s : bytes) : bytes :=
  drop_spaces_at_backslash None (unwords (words s)).

(** [l] occurs in [s] as a contiguous block. *)
Definition occurs (l s : bytes) : Prop := exists a b, s = a ++ l ++ b.

(** Normal form of C01. *)
Definition normal_form (s : bytes) : Prop :=
  (forall c, In c s -> c <> cr /\ c <> lf /\ c <> tab) /\
  (forall t, s <> sp :: t) /\ (forall t, s <> t ++ [sp]) /\
  ~ occurs [sp; sp] s /\ ~ occurs [sp; bsl] s /\ ~ occurs [bsl; sp] s.

(** Every maximal run of [c] replaced by a single [c]. *)
Fixpoint collapse (c : ascii) (s : bytes) : bytes :=
  match s with
  | [] => []
  | x :: s' =>
      if ascii_dec x c
      then match s' with
           | y :: _ => if ascii_dec y c then collapse c s' else x :: collapse c s'
           | [] => [x]
           end
      else x :: collapse c s'
  end.

(** The non-blank bytes of [s], in order. *)
Definition nonblank (s : bytes) : bytes := filter (fun c => negb (blankb c)) s.
