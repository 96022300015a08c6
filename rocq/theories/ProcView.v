(** Readings of runs of the Processor used in statements, and material for examples. *)
From Coq Require Import QArith.
From Verif Require Import GoStr Num Style Class Instr Engine Layout Grid Table Lines Proc RefEngine.

(** All engine commands of a trace, those made from callbacks included, in order. *)
Fixpoint flat_event {F : Num} (e : event F) : list (cmd F) :=
  match e with Ev c calls => c :: flat_map (fun p => flat_map flat_event (snd p)) calls end.
Definition flat {F : Num} (l : list (event F)) : list (cmd F) := flat_map flat_event l.

Definition trace_of {F : Num} {eng : Engine F} {A} (r : res eng A) : list (event F) :=
  match r with Ok _ s => ps_trace s | _ => [] end.

(** Styles that set nothing; a plain environment. *)
Definition no_style {F : Type} : Styled F := mkStyled [] [].
Definition plain_env (header footer body : list (instr NumQ)) : Env NumQ :=
  mkEnv (fun _ s => s) (fun _ _ s => s) (fun s => [s]) (fun n => n)
        (fun n => if beqb n ($"missing") then None else Some (96%Z, 192%Z)) (fun l => l) header footer body.
Definition ref_process (header footer body : list (instr NumQ)) : res RefEngine (option bytes) :=
  process (plain_env header footer body) 3 ref_start.

(** An environment with classes, and a state on the first page. *)
Definition doc_env (cs : Classes NumQ) (header footer body : list (instr NumQ)) : Env NumQ :=
  mkEnv (fun st s => match mutated_styles cs st s with Some s' => s' | None => s end)
        (fun sel st s => match mutated_styles_sel sel cs st s with Some s' => s' | None => s end)
        (fun s => [s]) (fun n => n)
        (fun n => if beqb n ($"missing") then None else Some (96%Z, 192%Z)) (fun l => l) header footer body.
Definition ref_state : PS NumQ RefEngine := mkPS (eng:=RefEngine) (mkRS 1 10 10 ref_font false None) DefaultStyle false [].
Definition ref_table (xrows : list (xrow NumQ)) : option (heap NumQ * table NumQ) * PS NumQ RefEngine :=
  transformTable (doc_env [] [] [] []) no_style xrows ref_state.
(** Styles setting single properties: height, column-width, padding. *)
Definition with_height_style (v : Q) : Styled NumQ := mkStyled [[([2; 1]%nat, VFloat (F:=NumQ) v)]] [].
Definition with_column_width (v : Q) : Styled NumQ := mkStyled [[([3; 0]%nat, VFloat (F:=NumQ) v)]] [].
(** Plain cells. *)
Definition xc (s : bytes) : xcell NumQ := XCell no_style 1 1 [ITextBlock s].
Definition xcs (cs rs : Z) (s : bytes) : xcell NumQ := XCell no_style cs rs [ITextBlock s].
Definition xr (l : list (xcell NumQ)) : xrow NumQ := XRow no_style l.
(** A document with classes and style attributes on the reference engine. *)
Definition ref_doc (header footer body : list (instr NumQ)) : res RefEngine (option bytes) :=
  process (doc_env [] header footer body) 3 ref_start.
(** A row with one cell of a given height. *)
Definition tall_row (v : Q) (s : bytes) : xrow NumQ := XRow no_style [XCell (with_height_style v) 1 1 [ITextBlock s]].
(** The first page with the cursor at height [y]. *)
Definition ref_state_at (y : Q) : PS NumQ RefEngine := mkPS (eng:=RefEngine) (mkRS 1 10 y ref_font false None) DefaultStyle false [].
