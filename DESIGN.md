# Formal model of mazzegi/xpdf in Rocq (Coq 8.16.1)

Sections 1-5 are written by hand (`tools/design_head.md`); section 6 is generated from
`properties.jsonl`, `MANIFEST.json` and the output of `Print Assumptions` by
`tools/design.py`.

## 1. Approach

The code is modelled function by function as total, computable Gallina functions.
Every model definition carries a comment citing the Go file and lines it models, and says
what is simplified. Files in `rocq/theories/`:

* `X.v` - the executable model (no proofs);
* `XSpec.v` - a small specification, independent of the model's helpers;
* `XView.v` - readings of model values used in statements;
* `XFacts.v`, `XThms.v`, ... - proofs;
* `XWit.v` - witnesses and material for examples;
* `P_X.v` - only property theorems, each closed by `exact`, with `Print Assumptions`
  beneath, and `Example`s showing that the hypotheses are met by a non-trivial case.

When the unchanged code violates a property, the violation is proved as `..._refuted`
(a concrete witness computed by the kernel), and the largest part that does hold is
proved as `..._partial` or as an exact characterisation. Section 5 lists these findings.

The theorems are tested against wrong programs: an edit of a model definition in a scratch
copy must make the theorems of the claim it breaks unprovable. `seeded/LOG.jsonl` lists the
edits, the theorems that failed and the theorems that were tightened.

## 2. Modelling conventions

* Go `string`: `list ascii` (bytes). Runes: `N`. UTF-8 decoding/encoding is modelled
  in full (invalid bytes decode to U+FFFD of width 1).
* Go `int`: `Z` (or `nat` for lengths and indices). 64-bit wrap-around is not modelled,
  except in parsers, where the int64 range check is explicit.
* `float64`: all layout code is written over a record `Num` of arithmetic operations.
  Structural theorems hold for *every* `Num`, in particular for IEEE binary64
  (instance `NumF64`, from the standard library's `SpecFloat`, NaN and rounding included; each operation is rounded, so the fused
  multiply-add that Go may use on some processors is not modelled).
  Theorems that need algebra are stated for exact rationals (instance `NumQ`); rounding
  errors are outside these theorems. The theorems named `..._float` state the same for
  binary64 with bounds on the rounding errors; the value of a number is then a real number
  (`FloatSpec.v`), and the error analysis uses Flocq.
* Index or slice out of range, nil dereference, reflect errors: an explicit `Panic`/`None` result.
* Go maps: association lists; iteration order is an explicit permutation the theorems
  quantify over.
* Pointers to table cells: identifiers into a heap.
* The PDF engine (`engine.Engine`): a record of an arbitrary state type, pure queries and
  commands. `AddPage`, `WriteText` and `WritePDF` may call the header/footer callbacks any
  finite number of times. Theorems quantify over every engine; laws an engine must satisfy
  are named hypotheses (`page_stable`, `places`, `writer`, `quiet_engine`, ...), each met by
  a concrete engine in an example. Re-entrancy depth is explicit fuel; running out of it is
  a distinct result (`Diverge`), never a normal-looking value.
* Loops without structural bound (`RemoveTwins`, class sheets, XML decoding) have fuel that
  is proved sufficient; running out is a distinct result.
* External functions (`strconv.ParseFloat`, `unicode.ToLower` above U+007F, image file
  decoding, TOML decoding, file system, gofpdf): arguments of the model (quantified
  functions), never axioms.

## 3. Trusted base

* The Coq 8.16.1 kernel, including its `vm_compute` virtual machine.
* Axioms: none of our own. `Print Assumptions` reports "Closed under the global context" for
  every property theorem (section 6) except those of `P_Float.v` (named `..._float`), which
  speak of real numbers and rest on the axioms of the standard library's reals:
  `ClassicalDedekindReals.sig_not_dec`, `ClassicalDedekindReals.sig_forall_dec`,
  `FunctionalExtensionality.functional_extensionality_dep` and, through Flocq's proofs,
  `Classical_Prop.classic` (all of the standard library). `vcheck` and `coqchk` mention constants
  `Coq.ssr.ssrunder.Under_rel.*`; these come with the standard library's `ssreflect`
  plugin files and no theorem depends on them.
* That the model is a faithful transcription of the Go code, line by line (the citations
  are there to be compared).
* The models of Go library functions, which are not part of /repo and were written from
  their documentation and source as known: `strings` (`GoStr.v`), UTF-8 (`Utf8.v`), `bufio.Scanner` with its
  64 KiB limit (`HyphPattern.v`), `fmt.Sscanf` for the formats used and `strconv.ParseInt`
  (`Scan.v`), `fmt` integer formatting (`GoFmt.v`), `reflect` as used by `style/decode.go`
  (`Style.v`), `encoding/xml` above the level of raw tokens (`Xml.v`), `encoding/json` round
  trip of `Styles` (`Describe.v`), `xml.MarshalIndent` of structs without tags (`Dump.v`), `json.MarshalIndent` (`Json.v`), `path/filepath` for Unix (`Path.v`), IEEE arithmetic
  (`Num.v`, from the standard library).
* That only `AddPage`, `Write` and `Output` of gofpdf call header and footer functions.
* The generated modules `HyphEnUs.v` and `HyphLatin.v` are the tables of
  `hyphenation/en-us.go` and `latin.go` (generated by `tools/gen_tables.py`).

## 4. What is modelled

| Go code | Model | Properties |
|---|---|---|
| `text/text.go` | `Text.v` | C01-C04 |
| `hyphenation/hyphenation.go` | `Hyph.v` | C05-C10 |
| `hyphenation/pattern.go`, `en-us.go`, `latin.go` | `HyphPattern.v`, `HyphBuiltin.v`, `HyphEnUs.v`, `HyphLatin.v` | C11-C15 |
| `style/*.go` except `class.go` | `Style.v`, `Scan.v` | C16-C21 |
| `style/class.go`, `xdoc/style.go` | `Class.v`, `ClassOut.v` | C22-C25, C112 |
| `dim.go`, `draw.go`, `image.go` (sizes) | `Layout.v` | C26-C29, C108 |
| `grid.go` | `Grid.v` | C30, C31 |
| `table.go` up to line 334 | `Table.v`, `Proc.v` (heights) | C32-C41, C76 |
| `table.go` from line 338 | `Proc.v` | C42-C44, C85, C86, C93, C98-C100, C106, C108 |
| `text.go`, `text-hyph.go` | `Lines.v` | C45-C54, C66, C102, C103, C106 |
| `engine/engine.go` | `Engine.v` | all about drawing |
| `process.go`, `default.go`, `image.go` (drawing) | `Proc.v` | C55-C65, C77, C89, C90, C95, C97, C106, C108-C111, C114 |
| `xdoc/doc.go`, `instructions.go`, `registry.go`, `table.go`, `grid.go` | `Instr.v`, `Xml.v`, `Load.v`, `LoadDoc.v` | C67-C69, C78, C87, C88, C95, C97 |
| `xdoc/describe.go`, `diff.go` | `Describe.v` | C70-C72, C79 |
| `xdoc/describe.go:37-48` (XML), `cmd/describe/main.go` | `Dump.v` | C96, C112 |
| `xdoc/describe.go:37-48` (JSON) | `Json.v` | C101 |
| `font/*.go` | `Font.v` | C73, C80 |
| `engine/fpdf.go` lines 14-115 | `Font.v` | C81, C82 |
| `engine/fpdf.go` from line 117 | `Fpdf.v` | C91, C92, C94 |
| `process.go:35-41`, `path/filepath` | `Path.v` | C74 |
| `cmd/xpdf/main.go` | `Cmd.v`, `CmdOut.v` | C75, C83, C84, C113 |
| `table.go:11-54`, `dim.go:13-15` | `TableDump.v` | C104, C105 |
| `cmd/image/main.go`, verb `%q` of `fmt` | `ImageCmd.v` | C107 |

The repository's own tests that compare results (`text_test.go`, `style_test.go`, `class_test.go`, and the parsing test of `hyphenation_test.go`) are run on the model in `RepoTests.v`.

Not modelled: `MonoFont` of the engine, log output (`log.go`, the `Logf` calls); error
texts (an error is a distinct value without its message, except the engine's error that
Process returns); the bytes-to-tokens level of XML, TOML and image files; gofpdf itself, so
what ends up in the PDF file beyond the sequence of engine calls; concurrency (the code has
none); memory limits.

Conventions about panics: `MutatedStyles` and `Hyphenate` are partial functions in their own
models and total functions in the environment of `Process`; that they do not panic is proved separately
(C05 for hyphenators that were loaded, C24/C25/C87 for styles of loaded documents).

## 5. Findings: properties the code violates

* C06 (Hyphenation is lossless): False of the code: refuted with the built-in English table ("applications" loses its final s). Proved where it holds (words with a multi-byte letter); C07 characterises the loss for all words.
* C09 (Hyphenate keeps UTF-8 intact): False of the code: refuted with the built-in English table. Proved for ASCII words and for words whose cut offsets lie on rune boundaries.
* C14 (Load reports files it could not read completely): False of the code: a line of 64 KiB or more silently ends the file; the truncation is characterised exactly.
* C21 (Quadruples reject trailing garbage): False of the code: text after the fourth number of a border or padding is silently ignored. Proved instead: exactly what is ignored (C21_garbage_ignored).
* C29 (Images stay on the page): False of the code: an image started low on the page runs off its bottom (RefEngine witness). Proved instead: it overshoots by at most the cursor's distance from the top.
* C31 (Grid content is rendered): False of the code: renderGrid only checks the grid. Proved instead: a grid makes no engine call and changes no state.
* C36 (Rendered cells do not overlap): False of the code: refuted for a 2x2 cell (its lower right quarter is not reserved) and for staggered row spans. Proved for tables where no cell spans both ways and rows reached by a row span hold plain cells only.
* C39 (Column widths are never negative): False of the code: refuted when the requested widths exceed the table width. Proved when they do not.
* C41 (A cell is tall enough for its text): Proved for every cell without a height of its own. A cell with a height style gets at least that height, which may be less than its text needs (refuted).
* C43 (Header rows repeat after each page break): The schedule of C42_schedule states where page breaks are made and what is repeated after them, for every table and engine. Proved that a table whose cells hold no boxes breaks the page nowhere else; false otherwise (C43_box_refuted).
* C44 (Table rows stay on the page): False of the code: the fit is not checked again after repeating header rows (RefEngine witness). Proved for rows that fit below the repeated header rows at the top of a page.
* C47 (Wrapping never produces blank lines): False of the code: a word wider than the line is preceded by a blank line. Proved for texts whose words fit on a line of their own.
* C48 (Block text keeps its letters): False of the code with the built-in English patterns, because Hyphenate loses final letters (C06). Proved for every hyphenator that is lossless on the words of the text; C48_rules states the division of words for every hyphenator.
* C51 (The last line of a paragraph is not stretched): False of the code: the mark is put on the line before the one that ends with the line break. Proved for texts without line breaks; C48_rules states the marks exactly for every text.
* C53 (Measured text height is never negative): False of the code: an empty text measures minus half a line with the default style. Proved for texts with a word or a line break, and for line spacings up to 1, for exact numbers and for binary64 floats (C53_float_partial).
* C56 (Element fonts are scoped): False of the code: the font of the last word written stays the ambient font. Proved instead: exactly which font a text leaves behind.
* C58 (No automatic page break inside header or footer): False of the code when a callback is interrupted by another callback (which enables page breaks again). Proved for callbacks not interrupted, on every engine.
* C60 (A newpage in a header is harmless): False of the code: with a newpage in the header Process does not return, for every document and every engine that calls the header function for each page (C60_loops).
* C63 (Text boxes stay above the bottom margin): False of the code: the padding is ignored when deciding whether a box fits. Proved: the frame reaches below the bottom margin by less than padding and offset, over exact numbers.
* C67 (repeatheader is bounded): The bound is proved for every table of every loaded document. That other values make Load fail is proved for tables with only boxes, texts, tables and rows around them; false in general: inside a cell or grid part such a table is silently left out (C67_refuted).
* C69 (Loading keeps document order and text): C69_load states exactly what is loaded, for every token stream; nothing is lost in header, footer, body, box, text, table and row. False for cells: children with bad attributes are left out (C69_refuted).
* C70 (Describe mirrors the document): Proved for every document: names, values, style differences and children of the items. False only for rows, cells, grid rows and grid parts outside their table or grid, which are loaded but not shown (C70_refuted).
* C71 (Describe reports the page margins): False of the code: the left entry shows the right margin. Proved for the other three; the left entry is right exactly if both margins are equal.
* C72 (Style differences are sound and complete): Proved for every style without NaN or infinite numbers, over binary64. Otherwise false: only an error entry is shown, which depends on the map order (C72_not_finite, C72_refuted).
* C75 (The command never overwrites its input): False of the code: run on x.pdf in the working directory, the command overwrites it. Proved instead: this happens exactly for inputs named *.pdf that lie in the working directory, however their path is written.
* C84 (A failing run leaves the output file alone): False of the code: the output file is created before the fonts are loaded, so a run that fails later leaves it empty. Proved instead: it is unchanged if the input cannot be loaded or the output not created, and what it holds after any failure.
* C86 (Vertical alignment of cell text): False of the code for block text: its height is measured without hyphenation, refuted by a table whose first cell is written above the page. False in float64 also for other texts: the inner width of the cell is rounded differently for measuring and for writing, so that a text measured as one line is written as two (C86_float_refuted). Proved for all texts that are not block text, in exact arithmetic, and in float64 up to rounding if both widths are the same float (C86_float_partial).
* C99 (Lines are aligned to the edges of the text): False of the code: the width of a line counts a blank in front of its first word that is not printed, so right-aligned lines end one blank left of the edge and centred lines have one blank more space on the right (C99_refuted). Proved: left-aligned lines, and the exact deviation of the others.
* C100 (Lines of a text do not overlap): False of the code: the line feed after a line is taken from the font of its last word, so a line with a larger word before a smaller one is overprinted (C100_refuted: 40 points, next line 18 points below). Proved: the exact distance (C100_feeds_partial), and that lines of one font height do not overlap (C100_below_partial).
* C101 (Descriptions can be dumped as JSON): False of the code: if any number shown is NaN or infinite (a margin, setx, sety or linefeed of "NaN"), encoding/json fails, the error is dropped and the result is empty (C101_refuted). Proved: with finite numbers the JSON is read back completely, otherwise nothing is dumped (C101_dump_partial, C101_items_partial).
* C102 (Words are printed in the font and colour of their element): False of the code: writeText and writeTextHyphenated set the text colour once, to that of the enclosing text, so the text colour of a paragraph inside a text, box or cell is ignored (C102_refuted: a red paragraph is printed black). Proved: every word is printed in the font of its element and in the colour of the text, box or cell it is in, in the body (C102_document_partial) and in headers and footers (C102_header_footer_partial).
* C103 ({cp} shows the number of the page it is printed on): False of the code: {cp} is replaced when a text is broken into lines, before the engine may begin a new page for a line (C103_refuted: '1' printed on page 2). Proved: all words of a text show the number of the page on which its first word was asked for, in the body (C103_document_partial) and in headers and footers (C103_header_footer_partial); a header or footer that begins no page itself shows the number of its own page (C103_header_footer); the PDF engine obeys the page law if gofpdf does (C103_pdf).
* C106 (Text stays inside its frame, from top to bottom): False of the code in float64: the inner width of a cell is rounded differently when the height of its row is computed and when its text is written, so that a text given the height of one line is written as two, the second below the frame (C106_float_refuted). Proved in exact arithmetic.
* C109 (Headers and footers are the same on every page): False of the code: writing a text leaves its font in the Processor (C56), and headers and footers start from it (C109_refuted: a text in 30 point makes the next page's header large). Proved: texts and boxes that set the font themselves, not justified, are printed alike on all pages (C109_same_partial). Not said of tables in headers.
* C112 (The command describe prints XML and nothing else): False of the code: DecodeClasses prints a line to standard output for every selector it reads (style/class.go:97), so the output of cmd/describe is not XML for documents with selectors (C112_refuted). Proved: exactly these lines are printed, in the order of the rules, and then the XML; without selectors nothing but the XML (C112_command_partial, C112_load, C112_sheet).

Further observations, not properties of the list but visible in the models:

* `{cp}` is replaced when the text is broken into lines, so a text that runs over a page
  break shows the number of the page it began on.
* The vertical alignment of a cell uses the height of the text without hyphenation even for
  block text (table.go:404).
* A box in a cell aligned middle or bottom is moved down by half its own height or its whole
  height, not by the free space (table.go:424-430).
* The height of a cell ignores boxes and images in it; boxes nested in boxes, and tables in cells, are not drawn.
* Describe glues words together that are separated by an even number of spaces (`clearStr`).

## 6. Properties and theorems

Methods:

| Properties | Proof |
|---|---|
| C01-C04 | loop = run collapsing, by induction on the string; termination by length |
| C05-C10 | bounds by an invariant on the array of weights; equality with a declarative maximum; refutations by evaluation on the real English table |
| C11-C15 | induction over runes and lines; finite tables by a boolean check run in the kernel and lifted with `forallb_forall` |
| C16-C21 | permutation invariance from distinct field paths; lens laws; induction over digits |
| C22-C25, C115 | induction over the sheet text; fold over the class list |
| C26-C29 | case analysis; linear and non-linear arithmetic on rationals; painting of the path commands |
| C28, C37, C38, C40, C42, C46, C49, C50, C53, C93 in float64 | error analysis over the reals: SpecFloat operations equal Flocq's, each rounds with relative error 2^-53; scaling down never rounds above the bound; induction over the columns, cells and words |
| C30-C31 | invariant of adding cells in row-major order |
| C32-C41, C76 | heap invariants over the two span passes; induction over rows |
| C42-C44 | induction over the rows, collecting the schedule; arithmetic on rationals |
| C45-C54, C66 | refinement of the line breaking loop to a declarative line breaking relation; trace induction for writing |
| C85, C86 | composition of the writing and measuring theorems; exact arithmetic over Q |
| C55-C65, C77 | Hoare-style invariants over every engine; induction over the depth of callbacks |
| C89, C90 | composition of the table schedule, the cells' styles and the writing theorems; trace invariants; induction over the depth of callbacks |
| C67-C69, C78, C87, C88 | simulation of the decoder by a tree reader; fuel proved sufficient; induction over trees |
| C70-C72, C79 | tree induction; permutation argument over map orders |
| C73-C75, C80-C84 | list induction; lexical path semantics (walking elements) |
| C91, C92 | the adapter over an arbitrary library with the documented laws of gofpdf; instance of C89 |
| C93 | from the span invariants (C34, C35) and the row heights (C40); arithmetic on rationals for the edges |
| C94 | simulation: the library's canvas follows the drawing machine of C27, command by command |
| C95 | two runs in lockstep: relation of documents equal but for mutators of the same effect, through loading and every function of the processor |
| C96 | reader run over the printed text, by induction over marshalled values with an arbitrary rest of the input and stack; differences hold no objects, by C72 |
| C97 | composition of C69, C22-C25 and C89: letters of the element tree against letters of the instructions by induction over the reading relation, level by level; the styles of an unjustified file stay unjustified by the cascade |
| C98, C99 | the widths of the lines (C45-C49) added up word by word against a replay of the written commands; engines whose methods may run callbacks in between; the PDF engine is an instance, given the documented laws of gofpdf's SetFont, GetStringWidth and Write |
| C100 | the fonts of the words of each line and the font of its line feed, read off the written commands |
| C101 | a lexer and a stack parser for JSON as specification; marshalled values read back by induction, strings rune by rune |
| C102 | the fragments of all lines spell the words in order (induction over the lines, carrying the divided word); replay of the commands with a pen; the induction over documents of C89, made generic in what is observed |
| C103 | the page number is replayed over the events; the induction over documents made generic for C102 |
| C104 | a reader of the text as specification; printed entries read back by induction over rows; the counts from C32-C35 |
| C105 | a reader of decimals as specification; half-even rounding of the exact rational value is within half a tenth |
| C106 | the lines of a text do not depend on the state of the engine, as widths are asked only after setting a font (two runs in lockstep); then the measured heights (C41) against a replay of the heights of the written commands |
| C107 | a reader of Go's string literals as specification; quoted strings are read back by induction over the bytes |
| C108 | the engine calls are replayed with a pen; the induction over documents of C89 made generic in what is seen of frames, texts and images (`Watcher` in PaintRun.v) |
| C109 | corollary of C102: what a call prints is determined by the styles of the section, which do not depend on the font before |
| C110 | instructions are processed by sequential composition; the engine calls only grow (C61, C62) |
| C111 | Hoare-style walk through all functions of the Processor with the set of fonts as a parameter; cells that are measured or drawn are never placeholders (C36) |
| C112 | the loop of DecodeClasses with its output, shown to have the result of the loop without; induction on the rules read |
| C113 | case analysis on the steps of main with error texts; refinement to main of C83 |
| C114 | each such element is shown to return the state unchanged; congruence of Process in its callbacks (from C95), induction on the lists and on the depth of callbacks |
| C116 | invariant of all computations of the Processor, also of callbacks (only the font changes, page breaks do not become disabled), applied to the parts of a body before and after an instruction; with C63 for boxes |

The last column is what `Print Assumptions` lists.

| Property | Status | Theorem | File | Assumptions |
|---|---|---|---|---|
| C01 Whitespace normal form | proved | `C01_whitespace_normal_form` | `P_Text.v` | none |
| C02 Whitespace normalisation preserves the words | proved | `C02_whitespace_words` | `P_Text.v` | none |
|  |  | `C02_whitespace_nonblank` | `P_Text.v` | none |
| C03 Whitespace normalisation is idempotent | proved | `C03_whitespace_idempotent` | `P_Text.v` | none |
|  |  | `C03_whitespace_fixed` | `P_Text.v` | none |
| C04 RemoveTwins terminates and removes every twin | proved | `C04_remove_twins_terminates` | `P_Text.v` | none |
|  |  | `C04_remove_twins_none_left` | `P_Text.v` | none |
|  |  | `C04_remove_twins_unchanged` | `P_Text.v` | none |
|  |  | `C04_remove_twins_collapse` | `P_Text.v` | none |
| C05 Hyphenate never panics | proved | `C05_hyphenate_no_panic` | `P_Hyph.v` | none |
|  |  | `C05_unloaded_lookup_panics` | `P_Hyph.v` | none |
| C06 Hyphenation is lossless | partial | `C06_hyphenate_lossless_refuted` | `P_Hyph.v` | none |
|  |  | `C06_hyphenate_lossless_multibyte` | `P_Hyph.v` | none |
| C07 Hyphenate loses at most the last byte, and exactly when the last inner weight forces a cut | proved | `C07_hyphenate_loses_at_most_last` | `P_Hyph.v` | none |
|  |  | `C07_hyphenate_loss_iff` | `P_Hyph.v` | none |
| C08 Hyphenation cuts are Liang cuts | proved | `C08_hyphenate_liang` | `P_Hyph.v` | none |
|  |  | `C08_liang_cuts_unique` | `P_Hyph.v` | none |
|  |  | `C08_hyphenate_parts_two_bytes` | `P_Hyph.v` | none |
|  |  | `C08_hyphenate_whole` | `P_Hyph.v` | none |
| C09 Hyphenate keeps UTF-8 intact | partial | `C09_hyphenate_utf8_refuted` | `P_Hyph.v` | none |
|  |  | `C09_hyphenate_utf8_ascii` | `P_Hyph.v` | none |
|  |  | `C09_hyphenate_utf8_boundary` | `P_Hyph.v` | none |
| C10 Hyphenation ignores letter case | proved | `C10_hyphenate_case` | `P_Hyph.v` | none |
| C11 Pattern parsing round-trips | proved | `C11_pattern_roundtrip` | `P_Hyph.v` | none |
|  |  | `C11_pattern_wellformed` | `P_Hyph.v` | none |
|  |  | `C11_pattern_meaning` | `P_Hyph.v` | none |
| C12 Pattern parsing fails only on foreign digits | proved | `C12_pattern_rejects` | `P_Hyph.v` | none |
|  |  | `C12_pattern_no_length_error` | `P_Hyph.v` | none |
|  |  | `C12_load_rejects` | `P_Hyph.v` | none |
| C13 Load keeps the last definition of each pattern and every pattern line | proved | `C13_load_last_definition` | `P_Hyph.v` | none |
| C14 Load reports files it could not read completely | partial | `C14_load_complete_refuted` | `P_Hyph.v` | none |
|  |  | `C14_load_truncation` | `P_Hyph.v` | none |
| C15 Built-in hyphenators are complete | proved | `C15_en_us_complete` | `P_Hyph.v` | none |
|  |  | `C15_latin_complete` | `P_Hyph.v` | none |
| C16 Style decoding does not depend on map iteration order | proved | `C16_order_independent` | `P_Style.v` | none |
| C17 A declaration sets exactly its property | proved | `C17_sets_exactly` | `P_Style.v` | none |
|  |  | `C17_properties_complete` | `P_Style.v` | none |
|  |  | `C17_last_decl_functional` | `P_Style.v` | none |
|  |  | `C17_items` | `P_Style.v` | none |
|  |  | `C17_stripped` | `P_Style.v` | none |
| C18 Style decoding rejects exactly the malformed strings | proved | `C18_rejects_exactly` | `P_Style.v` | none |
| C19 Colours: accepted syntax, range and round trip | proved | `C19_colour_accepts_exactly` | `P_Style.v` | none |
|  |  | `C19_colour_range` | `P_Style.v` | none |
|  |  | `C19_colour_round_trip` | `P_Style.v` | none |
| C20 Border and padding quadruples round-trip | proved | `C20_integers_exactly` | `P_Style.v` | none |
|  |  | `C20_border_round_trip` | `P_Style.v` | none |
|  |  | `C20_padding_round_trip` | `P_Style.v` | none |
|  |  | `C20_too_few` | `P_Style.v` | none |
| C21 Quadruples reject trailing garbage | partial | `C21_rejects_garbage_refuted` | `P_Style.v` | none |
|  |  | `C21_garbage_ignored` | `P_Style.v` | none |
| C22 Class sheets round-trip | proved | `C22_sheet_round_trip` | `P_Class.v` | none |
|  |  | `C22_errors_exactly` | `P_Class.v` | none |
|  |  | `C22_sheet_functional` | `P_Class.v` | none |
| C23 Class sheet decoding never panics or hangs | proved | `C23_total` | `P_Class.v` | none |
| C24 Cascade order | proved | `C24_cascade` | `P_Class.v` | none |
|  |  | `C24_attrs_refused` | `P_Class.v` | none |
|  |  | `C24_class_list` | `P_Class.v` | none |
| C25 Selector rule replaces base rule | proved | `C25_selector` | `P_Class.v` | none |
| C26 Effective width never exceeds the available width | proved | `C26_effective_width` | `P_Layout.v` | none |
|  |  | `C26_never_exceeds` | `P_Layout.v` | none |
|  |  | `C26_page` | `P_Layout.v` | none |
| C27 Box borders draw exactly the enabled sides | proved | `C27_box` | `P_Layout.v` | none |
|  |  | `C27_right_edge` | `P_Layout.v` | none |
| C28 Images fit and keep their proportions | proved | `C28_float` | `P_Float.v` | ClassicalDedekindReals.sig_not_dec, ClassicalDedekindReals.sig_forall_dec, FunctionalExtensionality.functional_extensionality_dep, Classical_Prop.classic |
|  |  | `C28_image` | `P_Layout.v` | none |
|  |  | `C28_unreadable` | `P_Layout.v` | none |
| C29 Images stay on the page | partial | `C29_refuted` | `P_Layout.v` | none |
|  |  | `C29_bound_partial` | `P_Layout.v` | none |
| C30 Grid areas are accepted exactly when they are rectangles | proved | `C30_rectangles` | `P_Layout.v` | none |
| C31 Grid content is rendered | partial | `C31_refuted` | `P_Layout.v` | none |
|  |  | `C31_no_effect` | `P_Layout.v` | none |
| C32 Tables become rectangular | proved | `C32_total` | `P_Table.v` | none |
|  |  | `C32_rectangular` | `P_Table.v` | none |
|  |  | `C32_tight` | `P_Table.v` | none |
| C33 No table cell is lost, duplicated or reordered | proved | `C33_cells_kept` | `P_Table.v` | none |
|  |  | `C33_added_blank` | `P_Table.v` | none |
| C34 Span bookkeeping | proved | `C34_owned` | `P_Table.v` | none |
|  |  | `C34_owner` | `P_Table.v` | none |
|  |  | `C34_row_count` | `P_Table.v` | none |
|  |  | `C34_order` | `P_Table.v` | none |
| C35 Column spans tile the row | proved | `C35_tiling` | `P_Table.v` | none |
| C36 Rendered cells do not overlap | partial | `C36_block_refuted` | `P_Table.v` | none |
|  |  | `C36_staggered_refuted` | `P_Table.v` | none |
|  |  | `C36_disjoint_partial` | `P_Table.v` | none |
| C37 Column widths | proved | `C37_float` | `P_Float.v` | ClassicalDedekindReals.sig_not_dec, ClassicalDedekindReals.sig_forall_dec, FunctionalExtensionality.functional_extensionality_dep, Classical_Prop.classic |
|  |  | `C37_column_widths` | `P_Table.v` | none |
| C38 Columns fill the table width exactly | proved | `C38_float` | `P_Float.v` | ClassicalDedekindReals.sig_not_dec, ClassicalDedekindReals.sig_forall_dec, FunctionalExtensionality.functional_extensionality_dep, Classical_Prop.classic |
|  |  | `C38_fill` | `P_Table.v` | none |
| C39 Column widths are never negative | partial | `C39_float_partial` | `P_Float.v` | ClassicalDedekindReals.sig_not_dec, ClassicalDedekindReals.sig_forall_dec, FunctionalExtensionality.functional_extensionality_dep, Classical_Prop.classic |
|  |  | `C39_refuted` | `P_Table.v` | none |
|  |  | `C39_nonnegative_partial` | `P_Table.v` | none |
| C40 Row heights | proved | `C40_float` | `P_Float.v` | ClassicalDedekindReals.sig_not_dec, ClassicalDedekindReals.sig_forall_dec, FunctionalExtensionality.functional_extensionality_dep, Classical_Prop.classic |
|  |  | `C40_row_heights` | `P_Table.v` | none |
| C41 A cell is tall enough for its text | partial | `C41_float_partial` | `P_Float.v` | ClassicalDedekindReals.sig_not_dec, ClassicalDedekindReals.sig_forall_dec, FunctionalExtensionality.functional_extensionality_dep, Classical_Prop.classic |
|  |  | `C41_own_height_float` | `P_Float.v` | ClassicalDedekindReals.sig_not_dec, ClassicalDedekindReals.sig_forall_dec, FunctionalExtensionality.functional_extensionality_dep, Classical_Prop.classic |
|  |  | `C41_measured_partial` | `P_Table.v` | none |
|  |  | `C41_all_measured` | `P_Table.v` | none |
|  |  | `C41_own_height` | `P_Table.v` | none |
|  |  | `C41_refuted` | `P_Table.v` | none |
| C42 Every authored cell is drawn, rows in order | proved | `C42_schedule` | `P_Draw.v` | none |
|  |  | `C42_tallest` | `P_Draw.v` | none |
|  |  | `C42_float` | `P_Float.v` | ClassicalDedekindReals.sig_not_dec, ClassicalDedekindReals.sig_forall_dec, FunctionalExtensionality.functional_extensionality_dep, Classical_Prop.classic |
| C43 Header rows repeat after each page break | partial | `C43_page_breaks_partial` | `P_Draw.v` | none |
|  |  | `C43_box_refuted` | `P_Draw.v` | none |
| C44 Table rows stay on the page | partial | `C44_refuted` | `P_Draw.v` | none |
|  |  | `C44_fits_partial` | `P_Draw.v` | none |
| C45 Line breaking keeps all words in order | proved | `C45_words` | `P_Lines.v` | none |
| C46 Lines fit and are greedy | proved | `C46_float` | `P_Float.v` | ClassicalDedekindReals.sig_not_dec, ClassicalDedekindReals.sig_forall_dec, FunctionalExtensionality.functional_extensionality_dep, Classical_Prop.classic |
|  |  | `C46_fits` | `P_Lines.v` | none |
|  |  | `C46_greedy` | `P_Lines.v` | none |
| C47 Wrapping never produces blank lines | partial | `C47_refuted` | `P_Lines.v` | none |
|  |  | `C47_blank_partial` | `P_Lines.v` | none |
|  |  | `C47_no_breaks_partial` | `P_Lines.v` | none |
| C48 Block text keeps its letters | partial | `C48_refuted` | `P_Lines.v` | none |
|  |  | `C48_letters_partial` | `P_Lines.v` | none |
|  |  | `C48_rules` | `P_Lines.v` | none |
| C49 Block lines fit | proved | `C49_float` | `P_Float.v` | ClassicalDedekindReals.sig_not_dec, ClassicalDedekindReals.sig_forall_dec, FunctionalExtensionality.functional_extensionality_dep, Classical_Prop.classic |
|  |  | `C49_block_fits` | `P_Lines.v` | none |
| C50 Justified lines fill the column | proved | `C50_float` | `P_Float.v` | ClassicalDedekindReals.sig_not_dec, ClassicalDedekindReals.sig_forall_dec, FunctionalExtensionality.functional_extensionality_dep, Classical_Prop.classic |
|  |  | `C50_filled` | `P_Lines.v` | none |
| C51 The last line of a paragraph is not stretched | partial | `C51_refuted` | `P_Lines.v` | none |
|  |  | `C51_last_partial` | `P_Lines.v` | none |
| C52 Measured height agrees with written height | proved | `C52_float` | `P_Float.v` | ClassicalDedekindReals.sig_not_dec, ClassicalDedekindReals.sig_forall_dec, FunctionalExtensionality.functional_extensionality_dep, Classical_Prop.classic |
|  |  | `C52_height` | `P_Lines.v` | none |
| C53 Measured text height is never negative | partial | `C53_float_partial` | `P_Float.v` | ClassicalDedekindReals.sig_not_dec, ClassicalDedekindReals.sig_forall_dec, FunctionalExtensionality.functional_extensionality_dep, Classical_Prop.classic |
|  |  | `C53_refuted` | `P_Lines.v` | none |
|  |  | `C53_height_partial` | `P_Lines.v` | none |
| C54 Text is written once, in order, at the aligned position | proved | `C54_text` | `P_Lines.v` | none |
|  |  | `C54_block_text` | `P_Lines.v` | none |
| C55 Only the font is ambient state | proved | `C55_ambient` | `P_Proc.v` | none |
|  |  | `C55_process` | `P_Proc.v` | none |
| C56 Element fonts are scoped | partial | `C56_refuted` | `P_Proc.v` | none |
|  |  | `C56_text_partial` | `P_Proc.v` | none |
| C57 Header and footer do not move the cursor | proved | `C57_cursor` | `P_Proc.v` | none |
| C58 No automatic page break inside header or footer | partial | `C58_refuted` | `P_Proc.v` | none |
|  |  | `C58_uninterrupted_partial` | `P_Proc.v` | none |
| C59 Processing terminates | proved | `C59_terminates` | `P_Proc.v` | none |
| C60 A newpage in a header is harmless | partial | `C60_loops` | `P_Proc.v` | none |
|  |  | `C60_refuted` | `P_Proc.v` | none |
| C61 PDF is written once, last, and only without error | proved | `C61_written_once` | `P_Proc.v` | none |
| C62 Body instructions are executed in order | proved | `C62_inner` | `P_Proc.v` | none |
|  |  | `C62_in_order` | `P_Proc.v` | none |
| C63 Text boxes stay above the bottom margin | partial | `C63_float_partial` | `P_Float.v` | ClassicalDedekindReals.sig_not_dec, ClassicalDedekindReals.sig_forall_dec, FunctionalExtensionality.functional_extensionality_dep, Classical_Prop.classic |
|  |  | `C63_refuted` | `P_Proc.v` | none |
|  |  | `C63_bottom_partial` | `P_Proc.v` | none |
| C64 Text boxes are framed around their text | proved | `C64_box` | `P_Proc.v` | none |
| C65 Engine font and text colour are restored after an element | proved | `C65_restored` | `P_Proc.v` | none |
| C66 Page number placeholder | proved | `C66_placeholder` | `P_Lines.v` | none |
|  |  | `C66_decimal` | `P_Lines.v` | none |
| C67 repeatheader is bounded | partial | `C67_bounded` | `P_Load.v` | none |
|  |  | `C67_fails_partial` | `P_Load.v` | none |
|  |  | `C67_refuted` | `P_Load.v` | none |
| C68 Unknown elements | proved | `C68_fails` | `P_Load.v` | none |
|  |  | `C68_skipped` | `P_Load.v` | none |
| C69 Loading keeps document order and text | partial | `C69_load` | `P_Load.v` | none |
|  |  | `C69_integers` | `P_Load.v` | none |
|  |  | `C69_numbers` | `P_Load.v` | none |
|  |  | `C69_areas` | `P_Load.v` | none |
|  |  | `C69_refuted` | `P_Load.v` | none |
| C70 Describe mirrors the document | partial | `C70_describe_partial` | `P_Describe.v` | none |
|  |  | `C70_refuted` | `P_Describe.v` | none |
| C71 Describe reports the page margins | partial | `C71_margins_partial` | `P_Describe.v` | none |
|  |  | `C71_refuted` | `P_Describe.v` | none |
| C72 Style differences are sound and complete | partial | `C72_changes_partial` | `P_Describe.v` | none |
|  |  | `C72_styles_diff` | `P_Describe.v` | none |
|  |  | `C72_not_finite` | `P_Describe.v` | none |
|  |  | `C72_refuted` | `P_Describe.v` | none |
| C73 Fonts are registered in order and loading stops at the first failure | proved | `C73_each` | `P_Files.v` | none |
|  |  | `C73_registered` | `P_Files.v` | none |
| C74 Relative file names resolve against the working directory | proved | `C74_absolute` | `P_Files.v` | none |
|  |  | `C74_relative` | `P_Files.v` | none |
| C75 The command never overwrites its input | partial | `C75_refuted` | `P_Files.v` | none |
|  |  | `C75_overwrites` | `P_Files.v` | none |
|  |  | `C75_output` | `P_Files.v` | none |
| C76 First and last rows and cells get their selector styles | proved | `C76_selectors` | `P_Table.v` | none |
| C77 Process never panics | proved | `C77_no_panic` | `P_Proc.v` | none |
| C78 Load returns | proved | `C78_returns` | `P_Load.v` | none |
| C79 Described texts are cleaned | proved | `C79_clean` | `P_Describe.v` | none |
| C80 Font files are found next to their definition | proved | `C80_definitions` | `P_Files.v` | none |
|  |  | `C80_fails` | `P_Files.v` | none |
| C81 The engine is set up as the page settings say | proved | `C81_engine` | `P_Files.v` | none |
| C82 Document fonts ask for the registered style | proved | `C82_letters` | `P_Files.v` | none |
|  |  | `C82_always` | `P_Files.v` | none |
| C83 The command changes only its output file | proved | `C83_others` | `P_Files.v` | none |
|  |  | `C83_arguments` | `P_Files.v` | none |
|  |  | `C83_success` | `P_Files.v` | none |
|  |  | `C83_code` | `P_Files.v` | none |
| C84 A failing run leaves the output file alone | partial | `C84_refuted` | `P_Files.v` | none |
|  |  | `C84_untouched_partial` | `P_Files.v` | none |
|  |  | `C84_failed` | `P_Files.v` | none |
| C85 What is drawn in a table cell | proved | `C85_cell` | `P_Cell.v` | none |
| C86 Vertical alignment of cell text | partial | `C86_block_refuted` | `P_Cell.v` | none |
|  |  | `C86_aligned_partial` | `P_Cell.v` | none |
|  |  | `C86_float_refuted` | `P_Float.v` | ClassicalDedekindReals.sig_forall_dec, FunctionalExtensionality.functional_extensionality_dep |
|  |  | `C86_float_partial` | `P_Float.v` | ClassicalDedekindReals.sig_not_dec, ClassicalDedekindReals.sig_forall_dec, FunctionalExtensionality.functional_extensionality_dep, Classical_Prop.classic |
| C87 Styles of a loaded document can always be applied | proved | `C87_styles` | `P_Load.v` | none |
| C88 Shape of loaded documents | proved | `C88_shape` | `P_Load.v` | none |
| C89 A document is written completely, in order, and nothing else is | proved | `C89_document` | `P_Output.v` | none |
| C90 Header and footer are written completely on every page | proved | `C90_header_footer` | `P_Output.v` | none |
| C91 The PDF engine moves the cursor as the drawing code expects | proved | `C91_laws` | `P_Fpdf.v` | none |
|  |  | `C91_moves` | `P_Fpdf.v` | none |
|  |  | `C91_documents` | `P_Fpdf.v` | none |
| C92 Metrics of the PDF engine | proved | `C92_area_float` | `P_Float.v` | ClassicalDedekindReals.sig_not_dec, ClassicalDedekindReals.sig_forall_dec, FunctionalExtensionality.functional_extensionality_dep, Classical_Prop.classic |
|  |  | `C92_feed` | `P_Fpdf.v` | none |
|  |  | `C92_area` | `P_Fpdf.v` | none |
|  |  | `C92_text` | `P_Fpdf.v` | none |
| C93 A cell is as wide as its columns and as high as its rows | proved | `C93_height` | `P_Draw.v` | none |
|  |  | `C93_width` | `P_Draw.v` | none |
|  |  | `C93_right_edge` | `P_Draw.v` | none |
|  |  | `C93_float` | `P_Float.v` | ClassicalDedekindReals.sig_not_dec, ClassicalDedekindReals.sig_forall_dec, FunctionalExtensionality.functional_extensionality_dep, Classical_Prop.classic |
| C94 What the PDF engine paints | proved | `C94_commands` | `P_Fpdf.v` | none |
|  |  | `C94_box` | `P_Fpdf.v` | none |
|  |  | `C94_image` | `P_Fpdf.v` | none |
|  |  | `C94_font` | `P_Fpdf.v` | none |
|  |  | `C94_text_color` | `P_Fpdf.v` | none |
| C95 The same input gives the same document | proved | `C95_same_calls` | `P_Same.v` | none |
| C96 Descriptions are dumped completely | proved | `C96_dump` | `P_Dump.v` | none |
|  |  | `C96_items` | `P_Dump.v` | none |
|  |  | `C96_texts` | `P_Dump.v` | none |
|  |  | `C96_command` | `P_Dump.v` | none |
| C97 The letters of a file reach the pages | proved | `C97_letters` | `P_Ink.v` | none |
|  |  | `C97_hyphens` | `P_Ink.v` | none |
| C98 Printed words stay inside their text | proved | `C98_text` | `P_Place.v` | none |
|  |  | `C98_box` | `P_Place.v` | none |
|  |  | `C98_cell` | `P_Place.v` | none |
|  |  | `C98_pdf` | `P_Place.v` | none |
|  |  | `C98_hyphenator` | `P_Place.v` | none |
| C99 Lines are aligned to the edges of the text | partial | `C99_refuted` | `P_Place.v` | none |
|  |  | `C99_aligned_partial` | `P_Place.v` | none |
| C100 Lines of a text do not overlap | partial | `C100_refuted` | `P_Place.v` | none |
|  |  | `C100_feeds_partial` | `P_Place.v` | none |
|  |  | `C100_below_partial` | `P_Place.v` | none |
| C101 Descriptions can be dumped as JSON | partial | `C101_refuted` | `P_Dump.v` | none |
|  |  | `C101_dump_partial` | `P_Dump.v` | none |
|  |  | `C101_items_partial` | `P_Dump.v` | none |
|  |  | `C101_texts` | `P_Dump.v` | none |
| C102 Words are printed in the font and colour of their element | partial | `C102_refuted` | `P_Styled.v` | none |
|  |  | `C102_document_partial` | `P_Styled.v` | none |
|  |  | `C102_header_footer_partial` | `P_Styled.v` | none |
| C103 {cp} shows the number of the page it is printed on | partial | `C103_refuted` | `P_Number.v` | none |
|  |  | `C103_document_partial` | `P_Number.v` | none |
|  |  | `C103_header_footer_partial` | `P_Number.v` | none |
|  |  | `C103_header_footer` | `P_Number.v` | none |
|  |  | `C103_pdf` | `P_Number.v` | none |
| C104 The debug text of a table shows its grid | proved | `C104_spans` | `P_GridText.v` | none |
| C105 The debug texts of sizes show them to a tenth | proved | `C105_dims` | `P_GridText.v` | none |
|  |  | `C105_area` | `P_GridText.v` | none |
| C106 Text stays inside its frame, from top to bottom | partial | `C106_float_refuted` | `P_Float.v` | ClassicalDedekindReals.sig_forall_dec, FunctionalExtensionality.functional_extensionality_dep |
|  |  | `C106_box` | `P_Inside.v` | none |
|  |  | `C106_cell` | `P_Inside.v` | none |
|  |  | `C106_row` | `P_Inside.v` | none |
|  |  | `C106_pdf` | `P_Inside.v` | none |
| C107 What the image command prints can be read back | proved | `C107_image` | `P_Image.v` | none |
|  |  | `C107_argument` | `P_Image.v` | none |
| C108 Everything a document draws, in order | proved | `C108_document` | `P_Paint.v` | none |
|  |  | `C108_header_footer` | `P_Paint.v` | none |
| C109 Headers and footers are the same on every page | partial | `C109_refuted` | `P_Header.v` | none |
|  |  | `C109_same_partial` | `P_Header.v` | none |
| C110 What comes later in a document does not change what was drawn before | proved | `C110_longer` | `P_Prefix.v` | none |
|  |  | `C110_drawn` | `P_Prefix.v` | none |
|  |  | `C110_common_start` | `P_Prefix.v` | none |
| C111 A document asks only for fonts made from its own styles | proved | `C111_within` | `P_Ask.v` | none |
|  |  | `C111_families` | `P_Ask.v` | none |
|  |  | `C111_registered` | `P_Ask.v` | none |
|  |  | `C111_default` | `P_Ask.v` | none |
| C112 The command describe prints XML and nothing else | partial | `C112_refuted` | `P_ClassOut.v` | none |
|  |  | `C112_command_partial` | `P_ClassOut.v` | none |
|  |  | `C112_load` | `P_ClassOut.v` | none |
|  |  | `C112_same` | `P_ClassOut.v` | none |
|  |  | `C112_sheet` | `P_ClassOut.v` | none |
| C113 The command reports the step that fails | proved | `C113_printed` | `P_CmdOut.v` | none |
|  |  | `C113_same` | `P_CmdOut.v` | none |
| C114 Elements that cannot be drawn change nothing | proved | `C114_thinned` | `P_Unseen.v` | none |
| C115 An appended mutator wins | proved | `C115_append` | `P_Class.v` | none |
| C116 Page breaks are suppressed in headers and footers only | proved | `C116_allowed` | `P_Break.v` | none |
|  |  | `C116_box` | `P_Break.v` | none |
|  |  | `C116_table` | `P_Break.v` | none |
