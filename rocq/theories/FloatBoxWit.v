(** An engine with a cursor in binary64, for the example of C63. *)
From Coq Require Import ZArith Reals.
From Verif Require Import GoStr Num Style Class Instr Engine Proc Lines LinesSpec ProcSpec Fpdf FloatSpec FloatWit FloatFillWit.

(** All fonts are 0.1 high; the cursor is at (10, 10) after a page break. *)
Definition desk : Engine NumF64 := mkEngine NumF64 (NumF64 * NumF64)
  (fun e => e) (fun _ => (of_Z 10, of_Z 10, of_Z 200, of_Z 287)) (fun _ => of_Z 210) (fun _ => of_Z 297)
  (fun _ => (of_Z 10, of_Z 10, of_Z 10, of_Z 10)) (fun _ => f_tenths 1) (fun e s => ruler_width (SFont DefaultStyle) s)
  (fun _ => 1%Z) (fun _ => None)
  (fun c e => match c with SetX x => (x, snd e) | SetY y => (fst e, y) | LineFeed n => (fst e, add (snd e) (mul (f_tenths 1) n)) | _ => e end)
  (fun e => EDone (of_Z 10, of_Z 10)) (fun s e => EDone e) (fun e => EDone e) (fun _ => None).
Lemma desk_places : places desk.
Proof. constructor; reflexivity. Qed.
Lemma desk_stable : page_stable (eng:=desk).
Proof. intros f e. reflexivity. Qed.
Lemma desk_top : forall callback (s s' : PS NumF64 desk), add_page callback s = Ok tt s' -> snd (getXY (ps_eng s')) = (of_Z 10 : NumF64).
Proof. intros callback s s' H. unfold add_page, command in H. cbn in H. injection H as <-. reflexivity. Qed.
Definition desk_state : PS NumF64 desk := mkPS (eng:=desk) (of_Z 10, f_tenths 2868) DefaultStyle false [].
Definition desk_calls : cb -> M desk unit := fun _ => ret tt.
(** The line of a border goes to a point below 287. *)
Definition too_low (c : cmd NumF64) : bool := match c with Simple (MoveTo _ y) => ltb (of_Z 287) y | _ => false end.
(** A PDF library with a right margin of 10.1 on pages 210.3 wide. *)
Definition FlatPdf : Pdf NumF64 := mkPdf NumF64 unit (fun _ => of_Z 10) (fun _ => of_Z 10) (fun _ => 1%Z) (fun _ => (of_Z 10, of_Z 10, f_tenths 101, f_tenths 102)) (fun _ => (f_tenths 2103, of_Z 297))
  (fun e => (of_Z 12, of_Z 4)) (fun _ s => of_Z (Z.of_nat (List.length s))) (fun _ => None)
  (fun _ e => e) (fun e => e) (fun e => e)
  (fun _ e => e) (fun _ _ e => e) (fun _ e => e) (fun _ _ _ e => e)
  (fun _ _ _ _ _ e => e) (fun _ _ _ e => e) (fun _ e => e) (fun _ _ _ e => e) (fun _ _ _ e => e) (fun _ _ _ _ _ e => e)
  (fun _ _ e => e) (fun _ _ e => e) (fun _ e => e)
  (fun e => EDone e) (fun h s e => EDone e) (fun e => EDone e) (fun _ => None).
