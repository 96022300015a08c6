(** Model of the PDF engine (engine/fpdf.go from line 117): an Engine made of the calls of the
    library gofpdf. The library itself is not modelled: it is any value of the record [Pdf]. *)
From Verif Require Import GoStr Num Style Engine Font.

Section Fpdf.
Variable F : Num.

(** The methods of gofpdf.Fpdf that are called: a state, queries, and commands. AddPage, Write
    and Output may run the registered header and footer functions. *)
Record Pdf := mkPdf {
  pst : Type;
  getX : pst -> F;
  getY : pst -> F;
  pageNo : pst -> Z;
  getMargins : pst -> F * F * F * F;              (* left, top, right, bottom *)
  getPageSize : pst -> F * F;                     (* width, height *)
  getFontSize : pst -> F * F;                     (* in points, in mm *)
  getStringWidth : pst -> bytes -> F;
  pdfError : pst -> option bytes;
  aliasNbPages : bytes -> pst -> pst;
  setHeaderFunc : pst -> pst;
  setFooterFunc : pst -> pst;
  pdfSetX : F -> pst -> pst;
  setXY : F -> F -> pst -> pst;
  ln : F -> pst -> pst;
  setFont : bytes -> bytes -> F -> pst -> pst;    (* family, style, size *)
  imageOptions : bytes -> F -> F -> F -> F -> pst -> pst;
  pdfSetTextColor : Z -> Z -> Z -> pst -> pst;
  pdfSetLineWidth : F -> pst -> pst;
  pdfSetDrawColor : Z -> Z -> Z -> pst -> pst;
  pdfSetFillColor : Z -> Z -> Z -> pst -> pst;
  rect : F -> F -> F -> F -> bytes -> pst -> pst;
  pdfMoveTo : F -> F -> pst -> pst;
  pdfLineTo : F -> F -> pst -> pst;
  pdfDrawPath : bytes -> pst -> pst;
  pdfAddPage : pst -> eprog pst;
  write : F -> bytes -> pst -> eprog pst;         (* line height, text *)
  output : pst -> eprog pst;
  outputResult : pst -> option bytes
}.
Variable pdf : Pdf.

(** engine/fpdf.go:82-84: the translator of NewFPDF *)
Definition translate_unicode (s : bytes) : bytes := s.

(** The commands of engine/fpdf.go: 125-127 SetPageCountAlias, 133-135 OnHeader, 137-139 OnFooter,
    145-147 SetX, 149-152 SetY, 158-161 LineFeed, 163-165 ChangeFont, 183-185 PutImage,
    187-189 SetTextColor, 215-241 drawing *)
Definition fpdf_simple (c : scmd F) (e : pst pdf) : pst pdf :=
  match c with
  | SetPageCountAlias alias => aliasNbPages pdf alias e
  | OnHeader => setHeaderFunc pdf e
  | OnFooter => setFooterFunc pdf e
  | SetX x => pdfSetX pdf x e
  | SetY y => setXY pdf (getX pdf e) y e
  | LineFeed lines => let '(_, heightMM) := getFontSize pdf e in ln pdf (mul heightMM lines) e
  | ChangeFont fnt => setFont pdf (Family fnt) (fpdf_font_style (FStyle fnt) (Weight fnt) (Decoration fnt)) (PointSize fnt) e
  | PutImage src x y width height => imageOptions pdf src x y width height e
  | SetTextColor r g b => pdfSetTextColor pdf r g b e
  | SetLineWidth w => pdfSetLineWidth pdf w e
  | SetDrawColor r g b => pdfSetDrawColor pdf r g b e
  | SetFillColor r g b => pdfSetFillColor pdf r g b e
  | FillRect x y width height => rect pdf x y width height ($"F") e
  | MoveTo x y => pdfMoveTo pdf x y e
  | LineTo x y => pdfLineTo pdf x y e
  | DrawPath => pdfDrawPath pdf ($"D") e
  end.

(** engine/fpdf.go:167-171 PrintableArea *)
Definition fpdf_area (e : pst pdf) : F * F * F * F :=
  let '(l, t, r, b) := getMargins pdf e in
  let '(pw, ph) := getPageSize pdf e in
  (l, t, sub (sub pw r) (of_Z 2), sub ph b).

(** engine/fpdf.go:117-123 Error and WritePDF, 129-131 CurrentPage, 141-143 AddPage, 154-156 GetXY,
    173-181 PageHeight and PageWidth, 195-198 FontHeight, 200-202 Margins, 204-206 TextWidth,
    208-211 WriteText *)
Definition FPDF : Engine F := mkEngine F (pst pdf)
  (fun e => (getX pdf e, getY pdf e))
  fpdf_area
  (fun e => fst (getPageSize pdf e))
  (fun e => snd (getPageSize pdf e))
  (getMargins pdf)
  (fun e => snd (getFontSize pdf e))
  (fun e s => getStringWidth pdf e (translate_unicode s))
  (pageNo pdf)
  (pdfError pdf)
  fpdf_simple
  (pdfAddPage pdf)
  (fun s e => write pdf (snd (getFontSize pdf e)) (translate_unicode s) e)
  (output pdf)
  (outputResult pdf).
End Fpdf.
