(** Independent specification of hyphenation (C05-C15). *)
From Coq Require Import Sorting.Sorted.
From Verif Require Import GoStr Utf8.

(** ** Liang's algorithm, declaratively.
    [pats] gives the weights of a letter sequence, [rs] is the word with its dots. *)
Definition patterns := list N -> option (list nat).

(** Some occurrence of a pattern in [rs] puts weight [v] directly before [rs]'s letter
    number [k] (counting from 0). *)
Definition contributes (pats : patterns) (rs : list N) (k v : nat) : Prop :=
  exists a sub b ws,
    rs = a ++ sub ++ b /\ sub <> [] /\ pats sub = Some ws /\
    List.length a <= k /\ nth_error ws (k - List.length a) = Some v.

(** [w] is the largest weight before letter [k]; 0 when there is none. *)
Definition max_weight (pats : patterns) (rs : list N) (k w : nat) : Prop :=
  (w = 0 \/ contributes pats rs k w) /\ (forall v, contributes pats rs k v -> v <= w).

Definition dotted (word : list N) : list N := [46%N] ++ word ++ [46%N].

(** [cs] are the cut positions of [word] (its letters in lower case): cut before letter
    [k] exactly when the weight there is odd and the previous cut (or the start) is at
    least two positions away. *)
Definition liang_cuts (pats : patterns) (word : list N) (cs : list nat) : Prop :=
  StronglySorted lt cs /\
  forall k, In k cs <->
    0 < k < List.length word /\
    (exists w, max_weight pats (dotted word) (S k) w /\ Nat.odd w = true) /\
    (forall j, j = 0 \/ In j cs -> j < k -> j + 2 <= k).

(** The pieces of [s] between consecutive cuts; the last piece only if it has two bytes. *)
Fixpoint pieces (last : nat) (s : bytes) (cs : list nat) : list bytes :=
  match cs with
  | [] => let r := skipn last s in if 2 <=? List.length r then [r] else []
  | c :: cs' => firstn (c - last) (skipn last s) :: pieces c s cs'
  end.

(** ** UTF-8 *)
Definition valid_utf8 (s : bytes) : Prop :=
  exists rs, Forall (fun r => valid_rune r = true) rs /\ s = encode rs.
Definition rune_boundary (s : bytes) (k : nat) : Prop :=
  valid_utf8 (firstn k s) /\ valid_utf8 (skipn k s).
Definition is_ascii (s : bytes) : Prop := Forall (fun c => (N_of_ascii c < 128)%N) s.

(** ** Pattern text: groups of an optional ASCII digit and a letter. *)
Definition ascii_digit (r : N) : Prop := (48 <= r <= 57)%N.
(** The digits of Unicode: 0-9 and, beyond Latin-1, those in [ext]. *)
Definition unicode_digit (ext : N -> bool) (r : N) : bool := ((48 <=? r) && (r <=? 57) || (256 <=? r) && ext r)%N.
Inductive groups (dig : N -> bool) : list N -> list (nat * N) -> Prop :=
| groups_nil : groups dig [] []
| groups_letter r rs gs :
    dig r = false -> groups dig rs gs -> groups dig (rs ++ [r]) (gs ++ [(0, r)])
| groups_digit d r rs gs :
    ascii_digit d -> groups dig rs gs ->
    groups dig (rs ++ [d; r]) (gs ++ [(N.to_nat (d - 48), r)]).

(** ** Lines of a text: LF-terminated, plus a last non-empty unterminated one. *)
Definition no_lf (l : bytes) : Prop := ~ In lf l.
Definition text_of_lines (ls : list bytes) (tail : bytes) : bytes :=
  flat_map (fun l => l ++ [lf]) ls ++ tail.
