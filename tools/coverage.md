| Go code | Model | Properties |
|---|---|---|
| `text/text.go` | `Text.v` | C01-C04 |
| `hyphenation/hyphenation.go` | `Hyph.v` | C05-C10 |
| `hyphenation/pattern.go`, `en-us.go`, `latin.go` | `HyphPattern.v`, `HyphBuiltin.v`, `HyphEnUs.v`, `HyphLatin.v` | C11-C15 |
| `style/*.go` except `class.go` | `Style.v`, `Scan.v` | C16-C21 |
| `style/class.go`, `xdoc/style.go` | `Class.v`, `ClassOut.v` | C22-C25, C112 |
| `dim.go`, `draw.go`, `image.go` (sizes) | `Layout.v` | C26-C29, C108 |
| `grid.go` | `Grid.v` | C30, C31 |
| `table.go` up to line 334 | `Table.v`, `Proc.v` (heights) | C32-C41, C76 |
| `table.go` from line 338 | `Proc.v` | C42-C44, C85, C86, C93, C98-C100, C106, C108 |
| `text.go`, `text-hyph.go` | `Lines.v` | C45-C54, C66, C102, C103, C106 |
| `engine/engine.go` | `Engine.v` | all about drawing |
| `process.go`, `default.go`, `image.go` (drawing) | `Proc.v` | C55-C65, C77, C89, C90, C95, C97, C106, C108-C111, C114 |
| `xdoc/doc.go`, `instructions.go`, `registry.go`, `table.go`, `grid.go` | `Instr.v`, `Xml.v`, `Load.v`, `LoadDoc.v` | C67-C69, C78, C87, C88, C95, C97 |
| `xdoc/describe.go`, `diff.go` | `Describe.v` | C70-C72, C79 |
| `xdoc/describe.go:37-48` (XML), `cmd/describe/main.go` | `Dump.v` | C96, C112 |
| `xdoc/describe.go:37-48` (JSON) | `Json.v` | C101 |
| `font/*.go` | `Font.v` | C73, C80 |
| `engine/fpdf.go` lines 14-115 | `Font.v` | C81, C82 |
| `engine/fpdf.go` from line 117 | `Fpdf.v` | C91, C92, C94 |
| `process.go:35-41`, `path/filepath` | `Path.v` | C74 |
| `cmd/xpdf/main.go` | `Cmd.v`, `CmdOut.v` | C75, C83, C84, C113 |
| `table.go:11-54`, `dim.go:13-15` | `TableDump.v` | C104, C105 |
| `cmd/image/main.go`, verb `%q` of `fmt` | `ImageCmd.v` | C107 |

The repository's own tests that compare results (`text_test.go`, `style_test.go`, `class_test.go`, and the parsing test of `hyphenation_test.go`) are run on the model in `RepoTests.v`.
