(** Model of package font and of the creation of the PDF engine. *)
From Verif Require Import GoStr Num Path.

(** font/registry.go:12-16; a Style is a string *)
Record Descriptor := mkFD { fd_name : bytes; fd_style : bytes; fd_path : bytes }.
(** font/registry.go:18-21 *)
Record Registry := mkReg { r_mono : bytes; r_fonts : list Descriptor }.
(** font/registry.go:23-25 *)
Definition new_registry : Registry := mkReg [] [].
(** font/registry.go:27-29 *)
Definition register (fd : Descriptor) (r : Registry) : Registry := mkReg (r_mono r) (r_fonts r ++ [fd]).

(** font/registry.go:35-43 Registry.Each. The callback may change a state and may fail. *)
Fixpoint each_font {S E} (do : Descriptor -> S -> S * option E) (fds : list Descriptor) (s : S) : S * option E :=
  match fds with
  | [] => (s, None)
  | fd :: fds' => match do fd s with (s', Some e) => (s', Some e) | (s', None) => each_font do fds' s' end
  end.
Definition each {S E} (do : Descriptor -> S -> S * option E) (r : Registry) (s : S) : S * option E :=
  each_font do (r_fonts r) s.

(** font/definition.go:10-23 *)
Record StyleDefinition := mkSD { sd_style : bytes; sd_path : bytes }.
Record Definition_ := mkDef { df_name : bytes; df_styles : list StyleDefinition }.
Record Definitions := mkDefs { ds_mono : bytes; ds_fonts : list Definition_ }.

(** filepath.Abs (path_unix.go unixAbs) with the working directory; [None] of the working directory
    is an error of os.Getwd *)
Definition abs_path (wd : option bytes) (file : bytes) : option bytes :=
  if is_abs file then clean file else match wd with None => None | Some d => join2 d file end.

Inductive result (A : Type) := Ok (a : A) | Fail.
Arguments Ok {A}. Arguments Fail {A}.

(** font/definition.go:25-57 LoadRegistryFromFile. [decoded] is what toml.DecodeFile delivers:
    the decoder is not modelled. Errors carry no text. *)
Definition load_registry (decoded : option Definitions) (wd : option bytes) (file : bytes) : result Registry :=
  match decoded with
  | None => Fail
  | Some defs =>
      match abs_path wd file with
      | None => Fail
      | Some absFile =>
          match dir absFile with
          | None => Fail
          | Some absDir =>
              let resolve f := if is_abs f then f else match join2 absDir f with Some p => p | None => [] end in
              Ok (fold_left
                    (fun reg fnt => fold_left (fun reg sty => register (mkFD (df_name fnt) (sd_style sty) (resolve (sd_path sty))) reg) (df_styles fnt) reg)
                    (ds_fonts defs) (mkReg (ds_mono defs) []))
          end
      end
  end.

(** The calls that set up gofpdf. Its state is the list of the calls made so far (last first), and
    whether it is in error is any function of these calls. *)
Inductive call (F : Num) :=
| New (orientation unit format dir : bytes)
| AddFont (name style file : bytes)
| SetAutoPageBreak (auto : bool) (margin : F)
| SetMargins (left top right : F).
Arguments New {F}. Arguments AddFont {F}. Arguments SetAutoPageBreak {F}. Arguments SetMargins {F}.

(** engine/fpdf.go:14-22 *)
Definition fpdf_orientation (o : bytes) : bytes :=
  if beqb o ($"portrait") then $"P" else if beqb o ($"landscape") then $"L" else [].
(** engine/fpdf.go:24-39 *)
Definition fpdf_format (f : bytes) : bytes :=
  if beqb f ($"a3") then $"A3" else if beqb f ($"a4") then $"A4" else if beqb f ($"a5") then $"A5"
  else if beqb f ($"letter") then $"Letter" else if beqb f ($"legal") then $"Legal" else $"A4".
(** engine/fpdf.go:99-108 *)
Definition font_file_style (s : bytes) : bytes :=
  if beqb s ($"bold") then $"B" else if beqb s ($"italic") then $"I"
  else if beqb s ($"bold+italic") then $"BI" else [].
(** engine/fpdf.go:41-56 *)
Definition fpdf_font_style (fstyle weight decoration : bytes) : bytes :=
  (if beqb fstyle ($"italic") then $"I" else []) ++
  (if beqb weight ($"bold") then $"B" else []) ++
  (if beqb decoration ($"underline") then $"U" else []).

Section Fpdf.
Context {F : Num}.
Variable read_file : bytes -> option bytes.               (* ioutil.ReadFile *)
Variable pdf_error : list (call F) -> bool.               (* pdf.Error() != nil *)

(** engine/fpdf.go:87-115 initFonts: the mono font and the calls made, or an error *)
Definition init_font (fd : Descriptor) (pdf : list (call F)) : list (call F) * option unit :=
  match read_file (fd_path fd) with
  | None => (pdf, Some tt)
  | Some bs =>
      let pdf' := AddFont (fd_name fd) (font_file_style (fd_style fd)) bs :: pdf in
      (pdf', if pdf_error pdf' then Some tt else None)
  end.
Definition init_fonts (r : Registry) (pdf : list (call F)) : bytes * (list (call F) * option unit) :=
  (match r_mono r with [] => $"Courier" | m => m end, each init_font r pdf).

(** engine/fpdf.go:64-85 NewFPDF: the mono font and the calls made, or an error *)
Definition new_fpdf (r : Registry) (orientation format : bytes) (left top right bottom : F)
  : result (bytes * list (call F)) :=
  let pdf := [New (fpdf_orientation orientation) ($"mm") (fpdf_format format) []] in
  match init_fonts r pdf with
  | (_, (_, Some _)) => Fail
  | (mono, (pdf, None)) => Ok (mono, SetMargins left top right :: SetAutoPageBreak true bottom :: pdf)
  end.
End Fpdf.
