Methods:

| Properties | Proof |
|---|---|
| C01-C04 | loop = run collapsing, by induction on the string; termination by length |
| C05-C10 | bounds by an invariant on the array of weights; equality with a declarative maximum; refutations by evaluation on the real English table |
| C11-C15 | induction over runes and lines; finite tables by a boolean check run in the kernel and lifted with `forallb_forall` |
| C16-C21 | permutation invariance from distinct field paths; lens laws; induction over digits |
| C22-C25, C115 | induction over the sheet text; fold over the class list |
| C26-C29 | case analysis; linear and non-linear arithmetic on rationals; painting of the path commands |
| C28, C37, C38, C40, C42, C46, C49, C50, C53, C93 in float64 | error analysis over the reals: SpecFloat operations equal Flocq's, each rounds with relative error 2^-53; scaling down never rounds above the bound; induction over the columns, cells and words |
| C30-C31 | invariant of adding cells in row-major order |
| C32-C41, C76 | heap invariants over the two span passes; induction over rows |
| C42-C44 | induction over the rows, collecting the schedule; arithmetic on rationals |
| C45-C54, C66 | refinement of the line breaking loop to a declarative line breaking relation; trace induction for writing |
| C85, C86 | composition of the writing and measuring theorems; exact arithmetic over Q |
| C55-C65, C77 | Hoare-style invariants over every engine; induction over the depth of callbacks |
| C89, C90 | composition of the table schedule, the cells' styles and the writing theorems; trace invariants; induction over the depth of callbacks |
| C67-C69, C78, C87, C88 | simulation of the decoder by a tree reader; fuel proved sufficient; induction over trees |
| C70-C72, C79 | tree induction; permutation argument over map orders |
| C73-C75, C80-C84 | list induction; lexical path semantics (walking elements) |
| C91, C92 | the adapter over an arbitrary library with the documented laws of gofpdf; instance of C89 |
| C93 | from the span invariants (C34, C35) and the row heights (C40); arithmetic on rationals for the edges |
| C94 | simulation: the library's canvas follows the drawing machine of C27, command by command |
| C95 | two runs in lockstep: relation of documents equal but for mutators of the same effect, through loading and every function of the processor |
| C96 | reader run over the printed text, by induction over marshalled values with an arbitrary rest of the input and stack; differences hold no objects, by C72 |
| C97 | composition of C69, C22-C25 and C89: letters of the element tree against letters of the instructions by induction over the reading relation, level by level; the styles of an unjustified file stay unjustified by the cascade |
| C98, C99 | the widths of the lines (C45-C49) added up word by word against a replay of the written commands; engines whose methods may run callbacks in between; the PDF engine is an instance, given the documented laws of gofpdf's SetFont, GetStringWidth and Write |
| C100 | the fonts of the words of each line and the font of its line feed, read off the written commands |
| C101 | a lexer and a stack parser for JSON as specification; marshalled values read back by induction, strings rune by rune |
| C102 | the fragments of all lines spell the words in order (induction over the lines, carrying the divided word); replay of the commands with a pen; the induction over documents of C89, made generic in what is observed |
| C103 | the page number is replayed over the events; the induction over documents made generic for C102 |
| C104 | a reader of the text as specification; printed entries read back by induction over rows; the counts from C32-C35 |
| C105 | a reader of decimals as specification; half-even rounding of the exact rational value is within half a tenth |
| C106 | the lines of a text do not depend on the state of the engine, as widths are asked only after setting a font (two runs in lockstep); then the measured heights (C41) against a replay of the heights of the written commands |
| C107 | a reader of Go's string literals as specification; quoted strings are read back by induction over the bytes |
| C108 | the engine calls are replayed with a pen; the induction over documents of C89 made generic in what is seen of frames, texts and images (`Watcher` in PaintRun.v) |
| C109 | corollary of C102: what a call prints is determined by the styles of the section, which do not depend on the font before |
| C110 | instructions are processed by sequential composition; the engine calls only grow (C61, C62) |
| C111 | Hoare-style walk through all functions of the Processor with the set of fonts as a parameter; cells that are measured or drawn are never placeholders (C36) |
| C112 | the loop of DecodeClasses with its output, shown to have the result of the loop without; induction on the rules read |
| C113 | case analysis on the steps of main with error texts; refinement to main of C83 |
| C114 | each such element is shown to return the state unchanged; congruence of Process in its callbacks (from C95), induction on the lists and on the depth of callbacks |
| C116 | invariant of all computations of the Processor, also of callbacks (only the font changes, page breaks do not become disabled), applied to the parts of a body before and after an instruction; with C63 for boxes |
