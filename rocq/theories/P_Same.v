(** Property C95: a document gives the same calls of the engine whatever the iteration orders of
    maps are.

    [load] is Load on the tokens of the XML decoder, [process] is Process on the Processor of the
    loaded document (SameSpec). *)
From Coq Require Import ZArith QArith Permutation.
From Verif Require Import GoStr Num Style Class ClassView Instr Xml Load LoadSpec LoadWit Grid Engine RefEngine Proc SameSpec SameLoad ProcWit LinesView LinesSpec WriteSpec OutputSpec.
Local Open Scope nat_scope.

(** C95: [order1] and [sheet1] are the orders in which maps are iterated while one copy of the
    input is loaded, [shuffle1] those while it is processed; likewise for the other copy. *)
Theorem C95_same_calls : forall (F : Num) (parse_float convert_float : bytes -> option F) order1 order2 sheet1 sheet2,
  (forall pos second, map_orders (order1 pos second)) -> (forall pos second, map_orders (order2 pos second)) ->
  map_orders sheet1 -> map_orders sheet2 ->
  forall hyph resolve image shuffle1 shuffle2,
  (forall l, Permutation (shuffle1 l) l) -> (forall l, Permutation (shuffle2 l) l) ->
  forall toks (eng : Engine F) depth (e : est eng),
  match load F parse_float convert_float order1 sheet1 toks, load F parse_float convert_float order2 sheet2 toks with
  | LOk _ doc1 cs1, LOk _ doc2 cs2 =>
      process (loaded_env hyph resolve image shuffle1 doc1 cs1) depth e = process (loaded_env hyph resolve image shuffle2 doc2 cs2) depth e
  | LErr _, LErr _ => True
  | _, _ => False
  end.
Proof. exact @load_process. Qed.
Print Assumptions C95_same_calls.
(** Two orders under which a document loads differently: in the mutator of its text the two
    properties are swapped. Its text is drawn, in both cases. *)
Definition ordered_kids : list node :=
  [el "style" [] [ch "a{width:3;height:4}"];
   el "body" [] [el "text" [("class", "a"); ("style", "width:5;height:6")] [ch "x y"]; el "grid" [] [el "gr" [] [ch "p q"]]]]%string.
Definition backwards : rawmap -> rawmap := @rev _.
Example C95_example :
  map_order backwards /\
  match load NumQ sample_q sample_q (fun _ _ _ l => l) (fun _ l => l) (root ordered_kids), load NumQ sample_q sample_q (fun _ _ _ => backwards) (fun _ => backwards) (root ordered_kids) with
  | LOk _ doc1 cs1, LOk _ doc2 cs2 =>
      match doc_body NumQ doc1, doc_body NumQ doc2 with
      | [IText st1 _; _], [IText st2 _; _] =>
          map (map fst) (st_mutators st1) = [[[2; 0]; [2; 1]]] /\ map (map fst) (st_mutators st2) = [[[2; 1]; [2; 0]]]
      | _, _ => False end /\
      match process (loaded_env (fun s => [s]) (fun s => s) (fun _ => None) (fun l => l) doc1 cs1) 5 ref_start with
      | Ok None s => map unspaced (written (ps_trace s)) = [$"x"; $"y"]
      | _ => False end
  | _, _ => False end.
Proof.
  split; [intro l; apply Permutation_sym, Permutation_rev|]. vm_compute. repeat split; reflexivity.
Qed.
