(** Loading: documents for the examples. *)
From Coq Require Import ZArith QArith.
From Verif Require Import GoStr Num Style Class ClassView Instr Xml Load LoadSpec LoadDocSpec.
Local Open Scope nat_scope.

Definition sample_q (s : bytes) : option NumQ := option_map inject_Z (sample_float s).
Definition sample_load : list token -> lres NumQ := load NumQ sample_q sample_q (fun _ _ _ l => l) (fun _ l => l).
Definition sample_styled := decode_styled NumQ sample_q sample_q (fun _ _ _ l => l).
Definition el (n : String.string) (a : list (String.string * String.string)) (kids : list node) : node :=
  Elem 0 ($ n) (map (fun kv => ($ (fst kv), $ (snd kv))) a) kids.
Definition ch (t : String.string) : node := Chars ($ t).
Definition root (kids : list node) : list token := flat Other ++ flat (el "document" [] kids) ++ [TChar ($"rest")].
Lemma root_tokens : forall kids, tokens_of (root kids) kids.
Proof. intro kids. exists [Other], 0, [], [TChar ($"rest")]. split; [|reflexivity]. intros p n a ks [H|[]]. discriminate H. Qed.
Definition plain : Styled NumQ := mkStyled [] [].
Definition body_of (r : lres NumQ) : option (list (instr NumQ)) := match r with LOk _ doc _ => Some (doc_body NumQ doc) | _ => None end.

(** A table in a box, one cell of which holds all kinds of trouble. *)
Definition trouble : list node :=
  [el "p" [("style", "width:x")] [ch "lost"]; ch "a"; el "b" [] [ch "b"; el "br" [] []]; el "table" [("repeatheader", "11")] [];
   el "grid" [] [el "part" [("area", "q")] []]; el "lf" [("lines", "x")] [ch "c"]]%string.
Definition sample_kids : list node :=
  [el "meta" [] [el "author" [] [ch "A"]; el "author" [] [ch "B"; el "b" [] [ch "x"]; ch "C"]]; el "page" [] [el "margins" [] [el "left" [] [ch " 7 "]]];
   el "style" [] [ch "p{width:3}"]; el "other" [] [el "body" [] [ch "no"]];
   el "body" [] [ch "one"; el "p" [("class", "x y")] [ch "two"]];
   el "body" [] [el "box" [] [el "table" [("repeatheader", "2")] [el "tr" [] [el "td" [("colspan", "2")] trouble]]]]]%string.
