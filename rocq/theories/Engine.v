(** engine/engine.go:9-41: the interface Engine, and the monad in which the Processor code
    is modelled. *)
From Verif Require Import GoStr Num Style.

(** The two functions registered with OnHeader and OnFooter. *)
Inductive cb := Header | Footer.

(** What a call that may call back does: return, or call a callback and go on with the state
    the engine has afterwards. *)
Inductive eprog (E : Type) := EDone (e : E) | ECall (c : cb) (e : E) (k : E -> eprog E).
Arguments EDone {E}. Arguments ECall {E}.

Section Engine.
Variable F : Num.

(** Commands that do not call back. *)
Inductive scmd :=
| SetPageCountAlias (alias : bytes)
| OnHeader
| OnFooter
| SetX (x : F)
| SetY (y : F)
| LineFeed (lines : F)
| ChangeFont (fnt : Font F)
| PutImage (src : bytes) (x y width height : F)
| SetTextColor (r g b : Z)
| SetLineWidth (w : F)
| SetDrawColor (r g b : Z)
| SetFillColor (r g b : Z)
| FillRect (x y width height : F)
| MoveTo (x y : F)
| LineTo (x y : F)
| DrawPath.

Inductive cmd := Simple (c : scmd) | AddPage | WriteText (s : bytes) | WritePDF.

(** An implementation of the interface: a state, queries that leave it unchanged, commands.
    MonoFont is never called. That only AddPage, WriteText and WritePDF call back is the
    documented behaviour of gofpdf (header and footer functions run when a page is begun
    or ended). An error is its message. *)
Record Engine := mkEngine {
  est : Type;
  getXY : est -> F * F;
  printableArea : est -> F * F * F * F;
  pageWidth : est -> F;
  pageHeight : est -> F;
  margins : est -> F * F * F * F;             (* left, top, right, bottom *)
  fontHeight : est -> F;
  textWidth : est -> bytes -> F;
  currentPage : est -> Z;
  engError : est -> option bytes;
  simple : scmd -> est -> est;
  addPage : est -> eprog est;
  writeText : bytes -> est -> eprog est;
  writePDF : est -> eprog est;
  writeResult : est -> option bytes           (* what WritePDF returns, in the state after it *)
}.

(** A trace of engine commands; under each command the callbacks the engine made while
    executing it, with their own traces. *)
Inductive event := Ev (c : cmd) (calls : list (cb * list event)).
Definition ev_cmd (e : event) : cmd := match e with Ev c _ => c end.
Definition ev_calls (e : event) : list (cb * list event) := match e with Ev _ l => l end.

(** The variable parts of a Processor (process.go:15-22) together with the engine's state and
    the trace so far. *)
Record PS (eng : Engine) := mkPS {
  ps_eng : est eng;
  ps_sty : Styles F;          (* currStyles *)
  ps_prevent : bool;          (* preventPageBreak *)
  ps_trace : list event
}.
End Engine.
Arguments SetPageCountAlias {F}. Arguments OnHeader {F}. Arguments OnFooter {F}. Arguments SetX {F}.
Arguments SetY {F}. Arguments LineFeed {F}. Arguments ChangeFont {F}. Arguments PutImage {F}.
Arguments SetTextColor {F}. Arguments SetLineWidth {F}. Arguments SetDrawColor {F}. Arguments SetFillColor {F}.
Arguments FillRect {F}. Arguments MoveTo {F}. Arguments LineTo {F}. Arguments DrawPath {F}.
Arguments Simple {F}. Arguments AddPage {F}. Arguments WriteText {F}. Arguments WritePDF {F}.
Arguments est {F}. Arguments getXY {F} {e}. Arguments printableArea {F} {e}. Arguments pageWidth {F} {e}.
Arguments pageHeight {F} {e}. Arguments margins {F} {e}. Arguments fontHeight {F} {e}. Arguments textWidth {F} {e}.
Arguments currentPage {F} {e}. Arguments engError {F} {e}. Arguments simple {F} {e}. Arguments addPage {F} {e}.
Arguments writeText {F} {e}. Arguments writePDF {F} {e}. Arguments writeResult {F} {e}.
Arguments Ev {F}. Arguments ev_cmd {F}. Arguments ev_calls {F}.
Arguments mkPS {F eng}. Arguments ps_eng {F eng}. Arguments ps_sty {F eng}. Arguments ps_prevent {F eng}. Arguments ps_trace {F eng}.

Section Monad.
Context {F : Num} {eng : Engine F}.
Notation PS := (PS F eng).

Definition set_eng (e : est eng) (s : PS) : PS := mkPS e (ps_sty s) (ps_prevent s) (ps_trace s).
Definition set_sty (y : Styles F) (s : PS) : PS := mkPS (ps_eng s) y (ps_prevent s) (ps_trace s).
Definition set_prevent (b : bool) (s : PS) : PS := mkPS (ps_eng s) (ps_sty s) b (ps_trace s).
Definition set_trace (t : list (event F)) (s : PS) : PS := mkPS (ps_eng s) (ps_sty s) (ps_prevent s) t.

(** Code that makes no call that may call back. *)
Definition St (A : Type) := PS -> A * PS.
Definition sret {A} (a : A) : St A := fun s => (a, s).
Definition sbind {A B} (m : St A) (k : A -> St B) : St B := fun s => let '(a, s') := m s in k a s'.
Definition get {A} (f : PS -> A) : St A := fun s => (f s, s).
Definition query {A} (f : est eng -> A) : St A := fun s => (f (ps_eng s), s).
Definition modify (f : PS -> PS) : St unit := fun s => (tt, f s).
Definition emit (c : scmd F) : St unit := fun s =>
  (tt, mkPS (simple c (ps_eng s)) (ps_sty s) (ps_prevent s) (ps_trace s ++ [Ev (Simple c) []])).

(** Code in general: it may also panic, or recurse through callbacks deeper than the depth
    allotted. *)
Inductive res (A : Type) := Ok (a : A) (s : PS) | Panic | Diverge.
Definition M (A : Type) := PS -> res A.
Definition lift {A} (m : St A) : M A := fun s => let '(a, s') := m s in Ok A a s'.
Definition ret {A} (a : A) : M A := fun s => Ok A a s.
Definition bind {A B} (m : M A) (k : A -> M B) : M B := fun s =>
  match m s with Ok _ a s' => k a s' | Panic _ => Panic B | Diverge _ => Diverge B end.

Variable callback : cb -> M unit.
(** The callbacks made by an engine call; [acc] collects them. *)
Fixpoint run_calls (p : eprog (est eng)) (acc : list (cb * list (event F))) (s : PS) : res (list (cb * list (event F))) :=
  match p with
  | EDone e => Ok _ acc (set_eng e s)
  | ECall c e k =>
      match callback c (set_eng e (set_trace [] s)) with
      | Ok _ _ s' => run_calls (k (ps_eng s')) (acc ++ [(c, ps_trace s')]) s'
      | Panic _ => Panic _
      | Diverge _ => Diverge _
      end
  end.
Definition command (c : cmd F) (p : est eng -> eprog (est eng)) : M unit := fun s =>
  match run_calls (p (ps_eng s)) [] s with
  | Ok _ calls s' => Ok _ tt (set_trace (ps_trace s ++ [Ev c calls]) s')
  | Panic _ => Panic _
  | Diverge _ => Diverge _
  end.
Definition add_page : M unit := command AddPage addPage.
Definition write_text (s : bytes) : M unit := command (WriteText s) (writeText s).
Definition write_pdf : M unit := command WritePDF writePDF.
End Monad.
Arguments St {F}. Arguments M {F}. Arguments res {F}. Arguments Ok {F eng A}. Arguments Panic {F eng A}. Arguments Diverge {F eng A}.

Notation "'let!' x := m 'in' k" := (sbind m (fun x => k)) (at level 200, x pattern, right associativity).
Notation "m ;! k" := (sbind m (fun _ => k)) (at level 60, right associativity).
Notation "'let*' x := m 'in' k" := (bind m (fun x => k)) (at level 200, x pattern, right associativity).
Notation "m ;; k" := (bind m (fun _ => k)) (at level 60, right associativity).
