# Formal model of mazzegi/xpdf in Rocq (Coq 8.16.1)

Sections 1-5 are written by hand (`tools/design_head.md`); section 6 is generated from
`properties.jsonl`, `MANIFEST.json` and the output of `Print Assumptions` by
`tools/design.py`.

## 1. Approach

The code is modelled function by function as total, computable Gallina functions.
Every model definition carries a comment citing the Go file and lines it models, and says
what is simplified. Files in `rocq/theories/`:

* `X.v` - the executable model (no proofs);
* `XSpec.v` - a small specification, independent of the model's helpers;
* `XView.v` - readings of model values used in statements;
* `XFacts.v`, `XThms.v`, ... - proofs;
* `XWit.v` - witnesses and material for examples;
* `P_X.v` - only property theorems, each closed by `exact`, with `Print Assumptions`
  beneath, and `Example`s showing that the hypotheses are met by a non-trivial case.

When the unchanged code violates a property, the violation is proved as `..._refuted`
(a concrete witness computed by the kernel), and the largest part that does hold is
proved as `..._partial` or as an exact characterisation. Section 5 lists these findings.

The theorems are tested against wrong programs: an edit of a model definition in a scratch
copy must make the theorems of the claim it breaks unprovable. `seeded/LOG.jsonl` lists the
edits, the theorems that failed and the theorems that were tightened.

## 2. Modelling conventions

* Go `string`: `list ascii` (bytes). Runes: `N`. UTF-8 decoding/encoding is modelled
  in full (invalid bytes decode to U+FFFD of width 1).
* Go `int`: `Z` (or `nat` for lengths and indices). 64-bit wrap-around is not modelled,
  except in parsers, where the int64 range check is explicit.
* `float64`: all layout code is written over a record `Num` of arithmetic operations.
  Structural theorems hold for *every* `Num`, in particular for IEEE binary64
  (instance `NumF64`, from the standard library's `SpecFloat`, NaN and rounding included; each operation is rounded, so the fused
  multiply-add that Go may use on some processors is not modelled).
  Theorems that need algebra are stated for exact rationals (instance `NumQ`); rounding
  errors are outside these theorems. The theorems named `..._float` state the same for
  binary64 with bounds on the rounding errors; the value of a number is then a real number
  (`FloatSpec.v`), and the error analysis uses Flocq.
* Index or slice out of range, nil dereference, reflect errors: an explicit `Panic`/`None` result.
* Go maps: association lists; iteration order is an explicit permutation the theorems
  quantify over.
* Pointers to table cells: identifiers into a heap.
* The PDF engine (`engine.Engine`): a record of an arbitrary state type, pure queries and
  commands. `AddPage`, `WriteText` and `WritePDF` may call the header/footer callbacks any
  finite number of times. Theorems quantify over every engine; laws an engine must satisfy
  are named hypotheses (`page_stable`, `places`, `writer`, `quiet_engine`, ...), each met by
  a concrete engine in an example. Re-entrancy depth is explicit fuel; running out of it is
  a distinct result (`Diverge`), never a normal-looking value.
* Loops without structural bound (`RemoveTwins`, class sheets, XML decoding) have fuel that
  is proved sufficient; running out is a distinct result.
* External functions (`strconv.ParseFloat`, `unicode.ToLower` above U+007F, image file
  decoding, TOML decoding, file system, gofpdf): arguments of the model (quantified
  functions), never axioms.

## 3. Trusted base

* The Coq 8.16.1 kernel, including its `vm_compute` virtual machine.
* Axioms: none of our own. `Print Assumptions` reports "Closed under the global context" for
  every property theorem (section 6) except those of `P_Float.v` (named `..._float`), which
  speak of real numbers and rest on the axioms of the standard library's reals:
  `ClassicalDedekindReals.sig_not_dec`, `ClassicalDedekindReals.sig_forall_dec`,
  `FunctionalExtensionality.functional_extensionality_dep` and, through Flocq's proofs,
  `Classical_Prop.classic` (all of the standard library). `vcheck` and `coqchk` mention constants
  `Coq.ssr.ssrunder.Under_rel.*`; these come with the standard library's `ssreflect`
  plugin files and no theorem depends on them.
* That the model is a faithful transcription of the Go code, line by line (the citations
  are there to be compared).
* The models of Go library functions, which are not part of /repo and were written from
  their documentation and source as known: `strings` (`GoStr.v`), UTF-8 (`Utf8.v`), `bufio.Scanner` with its
  64 KiB limit (`HyphPattern.v`), `fmt.Sscanf` for the formats used and `strconv.ParseInt`
  (`Scan.v`), `fmt` integer formatting (`GoFmt.v`), `reflect` as used by `style/decode.go`
  (`Style.v`), `encoding/xml` above the level of raw tokens (`Xml.v`), `encoding/json` round
  trip of `Styles` (`Describe.v`), `xml.MarshalIndent` of structs without tags (`Dump.v`), `json.MarshalIndent` (`Json.v`), `path/filepath` for Unix (`Path.v`), IEEE arithmetic
  (`Num.v`, from the standard library).
* That only `AddPage`, `Write` and `Output` of gofpdf call header and footer functions.
* The generated modules `HyphEnUs.v` and `HyphLatin.v` are the tables of
  `hyphenation/en-us.go` and `latin.go` (generated by `tools/gen_tables.py`).

## 4. What is modelled

@@COVERAGE@@

Not modelled: `MonoFont` of the engine, log output (`log.go`, the `Logf` calls); error
texts (an error is a distinct value without its message, except the engine's error that
Process returns); the bytes-to-tokens level of XML, TOML and image files; gofpdf itself, so
what ends up in the PDF file beyond the sequence of engine calls; concurrency (the code has
none); memory limits.

Conventions about panics: `MutatedStyles` and `Hyphenate` are partial functions in their own
models and total functions in the environment of `Process`; that they do not panic is proved separately
(C05 for hyphenators that were loaded, C24/C25/C87 for styles of loaded documents).

## 5. Findings: properties the code violates

@@FINDINGS@@

Further observations, not properties of the list but visible in the models:

* `{cp}` is replaced when the text is broken into lines, so a text that runs over a page
  break shows the number of the page it began on.
* The vertical alignment of a cell uses the height of the text without hyphenation even for
  block text (table.go:404).
* A box in a cell aligned middle or bottom is moved down by half its own height or its whole
  height, not by the free space (table.go:424-430).
* The height of a cell ignores boxes and images in it; boxes nested in boxes, and tables in cells, are not drawn.
* Describe glues words together that are separated by an even number of spaces (`clearStr`).
