{"id": "C01", "title": "Whitespace normal form", "statement": "The string returned by text.WhitespaceRectified contains no CR, LF or TAB, does not begin or end with a space, contains no two adjacent spaces, and has no space next to a backslash.", "quantifier": "every input byte string", "why_tests_cant": "The input space is infinite; runs of blanks, backslashes and mixed controls interact in unboundedly many ways.", "anchors": ["text/text.go:WhitespaceRectified", "text/text.go:RemoveTwins"]}
{"id": "C02", "title": "Whitespace normalisation preserves the words", "statement": "text.WhitespaceRectified(s) is exactly: the maximal blank-free words of s (blanks are space, CR, LF, TAB) in order, joined by one space, with every space next to a backslash deleted. No non-blank byte is lost, added, or moved.", "quantifier": "every input byte string", "why_tests_cant": "Needs equality with a specification on every string, not on six table rows.", "anchors": ["text/text.go:WhitespaceRectified"]}
{"id": "C03", "title": "Whitespace normalisation is idempotent", "statement": "text.WhitespaceRectified(text.WhitespaceRectified(s)) == text.WhitespaceRectified(s), so re-measuring already normalised text lays it out identically.", "quantifier": "every input byte string", "why_tests_cant": "Universal equation over strings.", "anchors": ["text/text.go:WhitespaceRectified"]}
{"id": "C04", "title": "RemoveTwins terminates and removes every twin", "statement": "text.RemoveTwins(s, t) returns for every s and t (the loop cannot run forever, also for t == \"\"); for non-empty t the result contains no occurrence of t immediately followed by t; if s contains none, s is returned unchanged; for a one-byte t it collapses every run of t to a single t and changes nothing else.", "quantifier": "every pair of byte strings", "why_tests_cant": "Termination of an unbounded loop and a universal postcondition.", "anchors": ["text/text.go:RemoveTwins"]}
{"id": "C05", "title": "Hyphenate never panics", "statement": "(*Hyphenator).Hyphenate performs no out-of-range index or slice operation, for any hyphenator obtained from hyphenation.Load and any string, including invalid UTF-8.", "quantifier": "every pattern file that loads, every byte string, every rune lower-casing function", "why_tests_cant": "Index arithmetic mixes byte and rune positions; only a proof covers every pattern length and every multi-byte layout.", "anchors": ["hyphenation/hyphenation.go:Hyphenate", "hyphenation/pattern.go:parsePatterns"]}
{"id": "C06", "title": "Hyphenation is lossless", "statement": "Concatenating the strings returned by Hyphenate(s) gives back s.", "quantifier": "every loaded pattern set and every word", "why_tests_cant": "A unit test samples words; here the loss depends on the last weight computed from thousands of patterns.", "anchors": ["hyphenation/hyphenation.go:Hyphenate"]}
{"id": "C07", "title": "Hyphenate loses at most the last byte, and exactly when the last inner weight forces a cut", "statement": "For every word the concatenated parts are either s or s without its final byte; the final byte is dropped exactly when a cut is made directly before it.", "quantifier": "every loaded pattern set and every word", "why_tests_cant": "Universal characterisation of the damage over all words and pattern sets.", "anchors": ["hyphenation/hyphenation.go:Hyphenate"]}
{"id": "C08", "title": "Hyphenation cuts are Liang cuts", "statement": "For a word of 3..100 bytes without a space, the word is cut before byte k (0<k<n) exactly when k is at least two bytes after the previous cut and the largest weight that any pattern occurrence in '.'+lower(word)+'.' assigns to that inter-letter position is odd; every returned part has at least two bytes. Words outside those lengths or containing a space are returned whole.", "quantifier": "every loaded pattern set, every word", "why_tests_cant": "Relates a triple loop with in-place maxima to a declarative maximum over all pattern occurrences.", "anchors": ["hyphenation/hyphenation.go:Hyphenate", "hyphenation/pattern.go:find"]}
{"id": "C09", "title": "Hyphenate keeps UTF-8 intact", "statement": "If s is valid UTF-8 every part returned by Hyphenate(s) is valid UTF-8.", "quantifier": "every loaded pattern set and every valid UTF-8 word", "why_tests_cant": "Depends on every multi-byte layout; the code compares rune indices with byte offsets.", "anchors": ["hyphenation/hyphenation.go:Hyphenate"]}
{"id": "C10", "title": "Hyphenation ignores letter case", "statement": "Two words of equal byte length whose runes lower-case to the same runes are cut at the same byte positions.", "quantifier": "every loaded pattern set, every pair of words", "why_tests_cant": "Universally quantified relational property.", "anchors": ["hyphenation/hyphenation.go:Hyphenate"]}
{"id": "C11", "title": "Pattern parsing round-trips", "statement": "Parsing the text form of a pattern (weight digit, letter, weight digit, ... weight digit) returns that pattern, and every successfully parsed pattern has exactly one more weight than letters with all weights in 0..9.", "quantifier": "every pattern with weights 0..9, every pattern line", "why_tests_cant": "Round-trip over an infinite set of patterns.", "anchors": ["hyphenation/pattern.go:parsePattern", "hyphenation/pattern.go:String"]}
{"id": "C12", "title": "Pattern parsing fails only on foreign digits", "statement": "hyphenation.Load rejects a pattern line exactly when a Unicode digit outside 0-9 stands where a weight is expected; the letters/weights length check never fires.", "quantifier": "every pattern line", "why_tests_cant": "Needs an invariant over every prefix of every line.", "anchors": ["hyphenation/pattern.go:parsePattern"]}
{"id": "C13", "title": "Load keeps the last definition of each pattern and every pattern line", "statement": "If hyphenation.Load succeeds on a text with lines shorter than 64 KiB, looking up a letter sequence yields the weights of the last non-blank line with those letters, and fails if there is none.", "quantifier": "every pattern file with lines below the scanner limit", "why_tests_cant": "Universal over files; map overwrite order matters.", "anchors": ["hyphenation/pattern.go:parsePatterns", "hyphenation/pattern.go:find"]}
{"id": "C14", "title": "Load reports files it could not read completely", "statement": "hyphenation.Load never returns a hyphenator built from only a prefix of the pattern lines.", "quantifier": "every pattern file", "why_tests_cant": "The failure needs a line longer than the bufio.Scanner limit and is silent.", "anchors": ["hyphenation/pattern.go:parsePatterns"]}
{"id": "C15", "title": "Built-in hyphenators are complete", "statement": "NewEnUs and NewLatin load every line of their embedded pattern table without error (their ignored error is never non-nil), and every pattern of the table is found with its own weights.", "quantifier": "all 4938 en-US and 336 Latin pattern lines", "why_tests_cant": "The error result is discarded in the code, so a bad line would surface only as a nil dereference in some later word.", "anchors": ["hyphenation/en-us.go:NewEnUs", "hyphenation/latin.go:NewLatin"]}
{"id": "C16", "title": "Style decoding does not depend on map iteration order", "statement": "style.DecodeMutator iterates a Go map; whether it fails, and the effect of the resulting mutator on any Styles, are the same for every iteration order.", "quantifier": "every style string, every map iteration order (permutation), every initial Styles", "why_tests_cant": "Go randomises the order per run; a test sees a few of the n! orders.", "anchors": ["style/decode.go:DecodeMutator", "style/decode.go:makeMutateFnc"]}
{"id": "C17", "title": "A declaration sets exactly its property", "statement": "Applying a decoded style changes precisely the properties whose names occur in it, to the value parsed from the last declaration of that name, and leaves every other property as it was; unknown names are ignored.", "quantifier": "every style string that decodes, every initial Styles, every property", "why_tests_cant": "Field-wise frame condition over all strings and styles, through a reflective search.", "anchors": ["style/decode.go:DecodeMutator", "style/decode.go:makeMutateFnc", "style/style.go:Styles"]}
{"id": "C18", "title": "Style decoding rejects exactly the malformed strings", "statement": "style.DecodeMutator fails exactly when some non-blank ';'-separated declaration is not of the form key:value with one colon, or the last declaration of a known property has an unparsable value, or an empty key is used.", "quantifier": "every style string", "why_tests_cant": "Both directions of an if-and-only-if over all strings.", "anchors": ["style/decode.go:parseRaw", "style/decode.go:makeMutateFnc"]}
{"id": "C19", "title": "Colours: accepted syntax, range and round trip", "statement": "A colour value is accepted exactly when it is six hexadecimal digits with an optional leading '#'; the components are then in 0..255 and are the three digit pairs; formatting a colour as #rrggbb and decoding gives the colour back.", "quantifier": "every value string, every RGB triple in 0..255", "why_tests_cant": "16.7 million colours and infinitely many rejected strings.", "anchors": ["style/color.go:UnmarshalStyle"]}
{"id": "C20", "title": "Border and padding quadruples round-trip", "statement": "Decoding 'l,t,r,b' for any four integers in the int64 range (border) or four parseable decimal tokens (padding, margin) yields those four values in the order left, top, right, bottom; blanks before a number are allowed and fewer than four numbers is an error.", "quantifier": "every quadruple, every amount of leading blanks", "why_tests_cant": "Infinite input space.", "anchors": ["style/box.go:UnmarshalStyle"]}
{"id": "C21", "title": "Quadruples reject trailing garbage", "statement": "A border or padding value with extra characters after the fourth number is rejected.", "quantifier": "every value string", "why_tests_cant": "Universal over suffixes.", "anchors": ["style/box.go:UnmarshalStyle"]}
{"id": "C22", "title": "Class sheets round-trip", "statement": "Decoding the text name1{decls1} name2{decls2} ... of a list of classes and selectors yields exactly those classes and selectors, later definitions of a class replacing earlier ones together with their selectors.", "quantifier": "every list of well-formed class definitions", "why_tests_cant": "Parser round-trip over all sheets.", "anchors": ["style/class.go:DecodeClasses"]}
{"id": "C23", "title": "Class sheet decoding never panics or hangs", "statement": "style.DecodeClasses returns (a result or an error) for every input: every slice bound is in range and each iteration consumes input.", "quantifier": "every byte string", "why_tests_cant": "Universal termination and bounds safety.", "anchors": ["style/class.go:DecodeClasses"]}
{"id": "C24", "title": "Cascade order", "statement": "The effective value of a property of an element is: the value set by its inline style if any, else the value of the last class in its class list that sets the property, else the inherited value. Unknown class names are ignored.", "quantifier": "every class sheet, class list, inline style, inherited Styles and property", "why_tests_cant": "Relational statement over unbounded lists of classes.", "anchors": ["xdoc/style.go:MutatedStyles", "style/class.go:Mutate"]}
{"id": "C25", "title": "Selector rule replaces base rule", "statement": "With a selector, each class of the element contributes its selector rule if it defines that selector and otherwise its base rule, never both; inline styles still win.", "quantifier": "every class sheet, class list, selector, inline style, inherited Styles", "why_tests_cant": "Universal over sheets.", "anchors": ["style/class.go:MutateWithSelector", "xdoc/style.go:MutatedStylesWithSelector", "table.go:transformTable"]}
{"id": "C26", "title": "Effective width never exceeds the available width", "statement": "The width used for an element is the requested width when it is between 0 and the available width and the available width otherwise; it never exceeds the available width.", "quantifier": "all requested widths and areas", "why_tests_cant": "Real-valued inputs.", "anchors": ["dim.go:EffectiveWidth"]}
{"id": "C27", "title": "Box borders draw exactly the enabled sides", "statement": "Drawing a box strokes the top, right, bottom and left edge segment exactly when the corresponding border value is positive, strokes nothing else, and fills one rectangle inset by half the line width.", "quantifier": "all box corners, all styles, all 16 border combinations", "why_tests_cant": "Coordinates and line widths are unbounded.", "anchors": ["draw.go:drawBox"]}
{"id": "C28", "title": "Images fit and keep their proportions", "statement": "An image is placed with width and height not exceeding the printable area reduced by its offsets, and with the aspect ratio of its requested size (or of the file when at most one dimension is given). In float64 arithmetic it still does not exceed the area, and the proportions are kept up to a relative error of 2^-48.", "quantifier": "all pixel sizes > 0, all requested sizes, offsets and areas with positive room", "why_tests_cant": "Real-valued case analysis with two successive rescalings.", "anchors": ["image.go:renderImage"]}
{"id": "C29", "title": "Images stay on the page", "statement": "An image placed in the body never extends below the bottom of the printable area.", "quantifier": "all documents and cursor positions", "why_tests_cant": "Depends on the cursor position, reached by arbitrary histories.", "anchors": ["image.go:renderImage"]}
{"id": "C30", "title": "Grid areas are accepted exactly when they are rectangles", "statement": "The grid check accepts a grid exactly when, for every area name, the cells carrying that name form a filled axis-parallel rectangle; the recorded left/right/top/bottom are the bounds of that rectangle.", "quantifier": "every grid (any number and length of rows, any names), every map iteration order", "why_tests_cant": "If-and-only-if over all grids.", "anchors": ["grid.go:add", "grid.go:validate", "grid.go:renderGrid"]}
{"id": "C31", "title": "Grid content is rendered", "statement": "The instructions in the parts of a grid appear in the output.", "quantifier": "every document with a grid", "why_tests_cant": "Universal over documents.", "anchors": ["grid.go:renderGrid"]}
{"id": "C32", "title": "Tables become rectangular", "statement": "After span processing every row has the same number of cells and each cell knows its own row and column position.", "quantifier": "every table: any rows, ragged rows, any integer spans (negative, zero, overlapping)", "why_tests_cant": "Unbounded tables with in-place insertions.", "anchors": ["table.go:processSpans", "table.go:normalize"]}
{"id": "C33", "title": "No table cell is lost, duplicated or reordered", "statement": "Reading a row of the processed table and skipping placeholder cells gives exactly the cells the author wrote in that row, in the same order; rows appended for overlong row spans contain placeholders only.", "quantifier": "every table", "why_tests_cant": "Insertion loop over pointer slices with aliasing.", "anchors": ["table.go:processColumnSpans", "table.go:processRowSpans"]}
{"id": "C34", "title": "Span bookkeeping", "statement": "A cell with colspan c and rowspan r (values below 1 count as 1) owns c-1 column placeholders in its own row and r-1 row placeholders, one in each of the next r-1 rows, creating rows past the end of the table when needed; every placeholder is owned by exactly one cell.", "quantifier": "every table", "why_tests_cant": "Unbounded spans; ownership is a heap property.", "anchors": ["table.go:processColumnSpans", "table.go:processRowSpans"]}
{"id": "C35", "title": "Column spans tile the row", "statement": "In a table without row spans, cell number k of a row starts at the column equal to the sum of the colspans before it and covers exactly colspan consecutive columns.", "quantifier": "every table with all row spans at most 1", "why_tests_cant": "Induction over rows of any length.", "anchors": ["table.go:processColumnSpans", "table.go:dim"]}
{"id": "C36", "title": "Rendered cells do not overlap", "statement": "The column/row rectangles occupied by two different authored cells of a processed table are disjoint.", "quantifier": "every table", "why_tests_cant": "The failing combinations (two-dimensional and staggered spans) are exactly the ones a hand-written test misses.", "anchors": ["table.go:processRowSpans", "table.go:renderTable"]}
{"id": "C37", "title": "Column widths", "statement": "All cells of a column get the same width: the largest positive column-width requested in that column, or else an equal share of the table width left over by the columns that have one. In float64 arithmetic the share is accurate to about 2^-52 of the width per column.", "quantifier": "every table, every table width", "why_tests_cant": "Unbounded tables and widths.", "anchors": ["table.go:assignColumnWidths"]}
{"id": "C38", "title": "Columns fill the table width exactly", "statement": "When at least one column has no requested width, the column widths add up to the table width: exactly in exact arithmetic, and in float64 arithmetic up to about 2^-52 of the width per column.", "quantifier": "every table, every table width", "why_tests_cant": "Algebraic identity over all tables.", "anchors": ["table.go:assignColumnWidths"]}
{"id": "C39", "title": "Column widths are never negative", "statement": "No column of a table with non-negative width gets a negative width (in float64: none below zero by more than the rounding, if the columns do not ask for more than the table's width).", "quantifier": "every table, every non-negative table width", "why_tests_cant": "Fails only when the requested widths exceed the table width.", "anchors": ["table.go:assignColumnWidths"]}
{"id": "C40", "title": "Row heights", "statement": "All cells of a row have the same height, which is the largest minimum height in the row and never negative. This holds in float64 arithmetic, too.", "quantifier": "every table, every engine", "why_tests_cant": "Unbounded tables; the text measurement is an arbitrary function.", "anchors": ["table.go:assignHeights"]}
{"id": "C41", "title": "A cell is tall enough for its text", "statement": "The height of the area a cell is drawn in, summed over the rows it spans, is at least its measured text height plus vertical padding. In float64 arithmetic it holds up to an error of the rounding.", "quantifier": "every table, every engine; exact arithmetic, and float64 with heights of moderate size", "why_tests_cant": "Heights are distributed over spanned rows by mutation in one pass and maximised in another.", "anchors": ["table.go:assignCellMinHeight", "table.go:assignHeights", "table.go:dim"]}
{"id": "C42", "title": "Every authored cell is drawn, rows in order", "statement": "Rendering a table draws, for rows 0,1,2,... in that order, every authored cell of the row left to right at the x position equal to the table origin plus the widths of the columns before it; nothing is drawn for placeholders; afterwards the cursor is below the last row.", "quantifier": "every table, every engine, with and without page breaks", "why_tests_cant": "Histories of page breaks are unbounded.", "anchors": ["table.go:renderTable"]}
{"id": "C43", "title": "Header rows repeat after each page break", "statement": "A page break inside a table happens exactly before a row that does not fit, and is followed by the first repeatheader rows and then the row itself; without repeatheader only the row follows.", "quantifier": "every table, every engine, every break pattern", "why_tests_cant": "The set of break histories is unbounded.", "anchors": ["table.go:renderTable"]}
{"id": "C44", "title": "Table rows stay on the page", "statement": "A row that is not taller than the printable area is drawn inside it.", "quantifier": "every table", "why_tests_cant": "Depends on the history of earlier rows and repeated header heights.", "anchors": ["table.go:renderTable"]}
{"id": "C45", "title": "Line breaking keeps all words in order", "statement": "Concatenating the words of all lines produced for a text gives exactly the words of its text blocks and paragraphs in order; nothing is lost, duplicated or reordered.", "quantifier": "every instruction list, width, style and engine (every text-width function)", "why_tests_cant": "Universal over texts and width functions.", "anchors": ["text.go:textLines", "text.go:writeText"]}
{"id": "C46", "title": "Lines fit and are greedy", "statement": "Every line holding more than one word has accumulated width below the available width, and the first word of a line that was started by wrapping would not have fitted on the previous line. In float64 arithmetic this holds of the accumulated width, and the exact sum of the measured widths exceeds the available width by a relative 2^-50 per item at most.", "quantifier": "every instruction list, width, style and engine", "why_tests_cant": "Universal over texts and width functions.", "anchors": ["text.go:textLines"]}
{"id": "C47", "title": "Wrapping never produces blank lines", "statement": "A line without words is produced only by a line break instruction.", "quantifier": "every instruction list, width, style and engine", "why_tests_cant": "Needs a word wider than the column at the start of a line.", "anchors": ["text.go:textLines"]}
{"id": "C48", "title": "Block text keeps its letters", "statement": "In block (hyphenated) mode the concatenation of all line items, with the hyphens inserted at line ends removed, contains exactly the letters of the text.", "quantifier": "every instruction list, width, style, engine and hyphenator", "why_tests_cant": "Universal over texts, widths and hyphenators.", "anchors": ["text-hyph.go:textLinesHyphenated"]}
{"id": "C49", "title": "Block lines fit", "statement": "In block mode every line with more than one item is no wider than the available width. In float64 arithmetic it may be wider by rounding errors: a relative 2^-51 at most.", "quantifier": "every instruction list, width, style, engine and hyphenator", "why_tests_cant": "Universal over texts and width functions.", "anchors": ["text-hyph.go:textLinesHyphenated"]}
{"id": "C50", "title": "Justified lines fill the column", "statement": "A stretched line ends 0.1 units before the right edge of the available width: the pure item widths plus the inserted gaps add up to width - 0.1. In float64 arithmetic it holds up to an error of the rounding.", "quantifier": "every line with at least two items, every engine with exact cursor arithmetic, as long as no word is put to a negative coordinate (which gofpdf counts from the right edge)", "why_tests_cant": "Real-valued identity over all lines.", "anchors": ["text-hyph.go:writeTextHyphenated"]}
{"id": "C51", "title": "The last line of a paragraph is not stretched", "statement": "In block mode the line before a line break, and the last line, are written unstretched and all other lines with two or more items are stretched.", "quantifier": "every instruction list", "why_tests_cant": "Depends on which already emitted line a flag is set on.", "anchors": ["text-hyph.go:textLinesHyphenated"]}
{"id": "C52", "title": "Measured height agrees with written height", "statement": "When all fonts in a text have the same height, writing the text advances the cursor by the measured height plus the line spacing below the last line; in float64 up to an error proportional to the number of lines and to 2^-50.", "quantifier": "every text whose line spacing times font height is not negative, and every engine with one font height", "why_tests_cant": "Two independent code paths must count the same lines.", "anchors": ["text.go:textHeight", "text.go:writeText"]}
{"id": "C53", "title": "Measured text height is never negative", "statement": "The measured height of any text is at least zero.", "quantifier": "every text, style and engine", "why_tests_cant": "Needs an empty line list.", "anchors": ["text.go:textHeight"]}
{"id": "C54", "title": "Text is written once, in order, at the aligned position", "statement": "Rendering a text emits its words with one write per word, line by line, each line starting at the position given by the horizontal alignment, one line feed per line.", "quantifier": "every text, style and engine", "why_tests_cant": "Universal over texts, widths and engines.", "anchors": ["text.go:writeText", "process.go:renderText"]}
{"id": "C55", "title": "Only the font is ambient state", "statement": "At every moment of Process the ambient style equals the default style in everything except the font: colours, padding, alignment and dimensions set on one element never influence another.", "quantifier": "every document, engine, hyphenator; every point of the run including header and footer callbacks", "why_tests_cant": "An invariant over all histories with re-entrant callbacks.", "anchors": ["process.go:processInstructions", "process.go:changeFont", "default.go:DefaultStyle"]}
{"id": "C56", "title": "Element fonts are scoped", "statement": "A font set by class or style on a box, text, paragraph or table does not affect the elements after it.", "quantifier": "every document", "why_tests_cant": "Needs sequences of elements; leaks through hidden state.", "anchors": ["process.go:changeFont", "text.go:textLines"]}
{"id": "C57", "title": "Header and footer do not move the cursor", "statement": "After a header or footer callback returns, the cursor is where it was when the callback started and page breaks are enabled again, whatever the header contains.", "quantifier": "every document, every engine, every nesting of callbacks", "why_tests_cant": "Re-entrancy: callbacks fire inside arbitrary engine calls.", "anchors": ["process.go:Process"]}
{"id": "C58", "title": "No automatic page break inside header or footer", "statement": "While a header or footer is being rendered the processor issues no page break except for an explicit newpage instruction.", "quantifier": "every document and engine", "why_tests_cant": "Universal over header contents and cursor positions.", "anchors": ["process.go:renderTextBox", "table.go:renderTable"]}
{"id": "C59", "title": "Processing terminates", "statement": "Process returns for every document whose header and footer contain no newpage, on every engine that does not itself break pages inside callbacks.", "quantifier": "every document and engine as described", "why_tests_cant": "Termination under re-entrancy.", "anchors": ["process.go:Process"]}
{"id": "C60", "title": "A newpage in a header is harmless", "statement": "Process also returns when the header contains a newpage instruction.", "quantifier": "every document", "why_tests_cant": "Unbounded recursion.", "anchors": ["process.go:Process", "process.go:processInstructions"]}
{"id": "C61", "title": "PDF is written once, last, and only without error", "statement": "Process calls WritePDF exactly once, after all other engine calls of the body, when the engine reports no error after the body, and returns its result; otherwise it returns the engine's error and writes nothing.", "quantifier": "every document, engine and writer", "why_tests_cant": "Universal over engines and their error behaviour.", "anchors": ["process.go:Process"]}
{"id": "C62", "title": "Body instructions are executed in order", "statement": "The engine calls made for the body are the concatenation, in document order, of the calls made for each instruction; instructions of unknown position (tr, td, p, br outside text) make none.", "quantifier": "every document and engine", "why_tests_cant": "Universal over documents.", "anchors": ["process.go:processInstructions"]}
{"id": "C63", "title": "Text boxes stay above the bottom margin", "statement": "The frame drawn for a text box that is shorter than a page does not reach below the bottom margin (also stated in float64).", "quantifier": "every box, cursor position and engine", "why_tests_cant": "Depends on cursor history and padding.", "anchors": ["process.go:renderTextBox"]}
{"id": "C64", "title": "Text boxes are framed around their text", "statement": "A text box draws a frame of the effective width and of the measured (or requested) text height plus vertical padding, writes the text inside the padding, and leaves the cursor at the bottom edge of the frame.", "quantifier": "every box, style, cursor position and engine; cursor positions as far as they are not negative (gofpdf counts negative ones from the opposite edge)", "why_tests_cant": "Universal over styles and engines.", "anchors": ["process.go:renderTextBox"]}
{"id": "C65", "title": "Engine font and text colour are restored after an element", "statement": "After a text, box or table the last font and text colour given to the engine are the ambient font and text colour.", "quantifier": "every document and engine", "why_tests_cant": "History property of the engine call trace.", "anchors": ["process.go:resetStyles"]}
{"id": "C66", "title": "Page number placeholder", "statement": "Every occurrence of {cp} in a text is replaced by the decimal number of the current page and no other character changes.", "quantifier": "every text and page number", "why_tests_cant": "Universal over strings.", "anchors": ["process.go:tr"]}
{"id": "C67", "title": "repeatheader is bounded", "statement": "In every loaded document the number of repeated header rows of every table is between 0 and 10; other values make Load fail.", "quantifier": "every XML input", "why_tests_cant": "Universal over inputs.", "anchors": ["xdoc/table.go:DecodeAttrs"]}
{"id": "C68", "title": "Unknown elements", "statement": "Load fails on an unregistered element directly inside header, footer, body, box, text, table or tr, while inside td and grid parts the tag is skipped and its contents are kept in place.", "quantifier": "every element tree", "why_tests_cant": "Universal over documents.", "anchors": ["xdoc/instructions.go:UnmarshalXML", "xdoc/table.go:UnmarshalXML", "xdoc/registry.go:DecodeInstruction"]}
{"id": "C69", "title": "Loading keeps document order and text", "statement": "The instructions of a loaded header, footer, body, box, text or td are its child elements and character data in document order, none lost, duplicated or reordered.", "quantifier": "every element tree", "why_tests_cant": "Universal over documents.", "anchors": ["xdoc/instructions.go:UnmarshalXML"]}
{"id": "C70", "title": "Describe mirrors the document", "statement": "Describe yields the items meta, page, header, footer, body, and under the last three one item per instruction, recursively and in order.", "quantifier": "every document", "why_tests_cant": "Structural recursion over unbounded trees.", "anchors": ["xdoc/describe.go:Describe"]}
{"id": "C71", "title": "Describe reports the page margins", "statement": "The left, top, right and bottom entries of Describe are the document's left, top, right and bottom margins.", "quantifier": "every document", "why_tests_cant": "Universal over margins.", "anchors": ["xdoc/describe.go:describeMargins"]}
{"id": "C72", "title": "Style differences are sound and complete", "statement": "The style differences shown by Describe list exactly the style fields that differ from the zero style, each once, with old and new value, independently of map iteration order.", "quantifier": "every pair of styles, every iteration order", "why_tests_cant": "Pairs of styles and map orders are unbounded.", "anchors": ["xdoc/diff.go:interfaceDiff", "xdoc/diff.go:stylesDiff"]}
{"id": "C73", "title": "Fonts are registered in order and loading stops at the first failure", "statement": "Registry.Each calls back for every registered font in registration order and stops with the callback's first error.", "quantifier": "every registry and callback", "why_tests_cant": "Universal over callbacks.", "anchors": ["font/registry.go:Each", "engine/fpdf.go:initFonts"]}
{"id": "C74", "title": "Relative file names resolve against the working directory", "statement": "An image file name is used unchanged if absolute and otherwise resolved lexically against the working directory, yielding a cleaned path: \".\" alone, or a path with no '.' element, no empty element and no '..' after a name.", "quantifier": "every file name and working directory", "why_tests_cant": "Universal over path strings.", "anchors": ["process.go:resolveFile"]}
{"id": "C75", "title": "The command never overwrites its input", "statement": "Without an explicit output argument, the command writes to a file different from the input file.", "quantifier": "every input path", "why_tests_cant": "Universal over path strings.", "anchors": ["cmd/xpdf/main.go:main"]}
{"id": "C76", "title": "First and last rows and cells get their selector styles", "statement": "The style of a row is the table's style changed by the row's classes and style attributes, with the first-row selector for the first row, otherwise last-row for the last; likewise for the cells of a row with first-cell and last-cell.", "quantifier": "every table and class sheet", "why_tests_cant": "Universal over tables, positions and style sheets.", "anchors": ["table.go:transformTable", "xdoc/style.go:MutatedStylesWithSelector"]}
{"id": "C77", "title": "Process never panics", "statement": "Process never panics, whatever the document and the engine (given that style mutation and hyphenation of the texts return): no table, grid, image, span, position or callback nesting leads to an index out of range or another run time error.", "quantifier": "every document, engine, hyphenator and map iteration order", "why_tests_cant": "Universal over documents, engines and histories of callbacks.", "anchors": ["process.go:Process", "table.go:renderTable", "grid.go:renderGrid"]}
{"id": "C78", "title": "Load returns", "statement": "Load returns a document or an error on every input: it neither panics nor runs forever, however deeply or wrongly the elements are nested.", "quantifier": "every token stream", "why_tests_cant": "Universal over inputs of any size and nesting.", "anchors": ["xdoc/doc.go:Load", "xdoc/instructions.go:UnmarshalXML"]}
{"id": "C79", "title": "Described texts are cleaned", "statement": "The text values in a description contain no line feed, no two spaces in a row and no space at either end, and all other characters of the text in order.", "quantifier": "every text", "why_tests_cant": "Universal over strings.", "anchors": ["xdoc/describe.go:clearStr"]}
{"id": "C80", "title": "Font files are found next to their definition", "statement": "Loading a font definition file registers every style of every font in the order of the file, with its name and style; its file path is absolute: unchanged if it was absolute and otherwise resolved lexically against the directory of the definition file.", "quantifier": "every decoded definition, definition file path and absolute working directory", "why_tests_cant": "Universal over definitions and path strings.", "anchors": ["font/definition.go:LoadRegistryFromFile"]}
{"id": "C81", "title": "The engine is set up as the page settings say", "statement": "Creating the PDF engine succeeds exactly if every font file can be read and no font leads to an error. Then it has asked for the page's orientation and paper (A4 if unknown), added every font once in registration order with its name, style letters and file contents, and set the margins of the page. The mono font is the registry's, or Courier.", "quantifier": "every registry, page setting, file system and error behaviour of gofpdf", "why_tests_cant": "Universal over registries and oracles.", "anchors": ["engine/fpdf.go:NewFPDF", "engine/fpdf.go:initFonts"]}
{"id": "C82", "title": "Document fonts ask for the registered style", "statement": "The style letters that the engine asks for with a font of a document are, in some order, those under which the font file of the same slant and weight was registered, and U if underlined.", "quantifier": "every font style, weight and decoration", "why_tests_cant": "Universal over strings.", "anchors": ["engine/fpdf.go:fpdfFontStyle", "engine/fpdf.go:initFonts"]}
{"id": "C83", "title": "The command changes only its output file", "statement": "Running the command changes no file but the output file; it exits with 0 only if every step succeeded, and then the output file holds exactly what processing wrote; otherwise it exits with 2, 3 or 4.", "quantifier": "all arguments, files and outcomes of the steps", "why_tests_cant": "Universal over files and outcomes.", "anchors": ["cmd/xpdf/main.go:main"]}
{"id": "C84", "title": "A failing run leaves the output file alone", "statement": "If the command exits with a code other than 0, an existing output file is unchanged.", "quantifier": "all arguments, files and outcomes of the steps", "why_tests_cant": "Universal over files and outcomes.", "anchors": ["cmd/xpdf/main.go:main"]}
{"id": "C85", "title": "What is drawn in a table cell", "statement": "A table cell is framed exactly around its area. Its text is measured and then written inside the padding, beginning at the left inner edge at the height given by the vertical alignment; then every box and every image of the cell is drawn in document order, beginning at the upper inner edge (moved down by half of or the whole box height when the cell is aligned to the middle or bottom). Nothing else is drawn.", "quantifier": "every cell, style, contents, area, environment and engine that puts the cursor where it is told to", "why_tests_cant": "Universal over contents, paddings and engines; the frame, the measuring and the writing are interleaved by engine state.", "anchors": ["table.go:renderCell"]}
{"id": "C86", "title": "Vertical alignment of cell text", "statement": "The text of a cell begins at the upper inner edge, ends at the lower inner edge, or leaves the same space above and below, according to the vertical alignment top, bottom or middle.", "quantifier": "every cell without boxes and images, every style, every engine measuring text by its font, exact arithmetic and float64, text not set to a negative height, line spacing not negative", "why_tests_cant": "Needs block text that hyphenation makes shorter, and relates the measuring to the writing of arbitrary texts.", "anchors": ["table.go:renderCell", "text.go:textHeight", "text-hyph.go:textHeightHyphenated"]}
{"id": "C87", "title": "Styles of a loaded document can always be applied", "statement": "Applying the styles of any element of a loaded document (classes, selectors such as :first, and the style attribute) to any style succeeds: it never panics, for elements at any depth in header, footer and body.", "quantifier": "every XML document that loads, every order in which maps are iterated, every element at any depth, every starting style and selector", "why_tests_cant": "Universal over documents and style texts; the mutators set fields by reflection along paths that were computed when the document was loaded.", "anchors": ["xdoc/doc.go:Load", "style/class.go", "style/decode.go", "xdoc/style.go"]}
{"id": "C88", "title": "Shape of loaded documents", "statement": "Every grid of a loaded document, at any depth, has at least one row, all its rows have the same number of areas, and every part names an area of a row. No text block is empty.", "quantifier": "every XML document that loads, every element at any depth", "why_tests_cant": "Universal over nested documents; holds only because each element is validated where it is decoded.", "anchors": ["xdoc/grid.go:Validate", "xdoc/instructions.go", "xdoc/registry.go"]}
{"id": "C89", "title": "A document is written completely, in order, and nothing else is", "statement": "A document that is processed to the end (with or without an error of the engine) has made the engine write, in its body, exactly the texts of its text, box and table instructions, in the order of the document: each text word by word (spaces not considered), in block text the letters of the words with hyphens added only in between; each row of a table once, except that some rows after the first may be preceded by a repetition of all header rows; in each cell its text and then its boxes; grids, images, fonts, moves and page breaks write nothing.", "quantifier": "every document body, header and footer, every style mutator, every engine that obeys two laws (fonts and text colours do not move the cursor, coordinates that were set are read back unless negative; changing the font does not change the page number), every order of map iteration, every nesting depth of callbacks", "why_tests_cant": "Universal over documents, styles and engines; a word can be lost at any line, cell, row or page boundary.", "anchors": ["process.go:Process", "process.go:processInstruction", "table.go:renderTable", "text.go", "text-hyph.go"]}
{"id": "C90", "title": "Header and footer are written completely on every page", "statement": "Each time the engine calls the header or footer function, also when it does so in the middle of a header or footer or while the file is being written, that call makes the engine write exactly the texts of the header or footer, in order, as in C89, and nothing of the body or of other pages.", "quantifier": "every document, every engine obeying the two laws of C89, every moment at which the engine calls back, nested to any depth", "why_tests_cant": "The engine decides when to call back, also inside the writing of a word; nested calls depend on the page layout.", "anchors": ["process.go:Process (header and footer functions)", "engine/engine.go:OnHeader", "engine/engine.go:OnFooter"]}
{"id": "C91", "title": "The PDF engine moves the cursor as the drawing code expects", "statement": "On a library that behaves as gofpdf is documented (negative coordinates count from the opposite edge), the PDF engine's SetX and SetY with non-negative values change only their own coordinate and are read back by GetXY (gofpdf's own SetY would go back to the left margin), and changing the font or the text colour moves nothing and stays on the page. So the laws the other properties assume of an engine hold, and documents printed with the PDF engine are complete in the sense of C89.", "quantifier": "every library obeying the documented laws of gofpdf, every state, every coordinate, every document", "why_tests_cant": "Universal over library states and numbers; the laws are assumptions of the theorems about drawing.", "anchors": ["engine/fpdf.go:SetX", "engine/fpdf.go:SetY", "engine/fpdf.go:ChangeFont", "engine/fpdf.go:GetXY"]}
{"id": "C92", "title": "Metrics of the PDF engine", "statement": "On a library that behaves as gofpdf is documented, a line feed of n lines goes to the left margin and down by n times the font height (if that is not negative); the printable area is the page without its margins and without 2 mm at the right (in float64 up to rounding); texts are written with the current font height as line height, and TextWidth measures the text that WriteText writes.", "quantifier": "every library obeying the documented laws of gofpdf, every state, every number of lines, every text", "why_tests_cant": "Universal over library states, page sizes, margins and texts.", "anchors": ["engine/fpdf.go:LineFeed", "engine/fpdf.go:PrintableArea", "engine/fpdf.go:FontHeight", "engine/fpdf.go:TextWidth", "engine/fpdf.go:WriteText"]}
{"id": "C93", "title": "A cell is as wide as its columns and as high as its rows", "statement": "The area a cell is drawn in is as high as the rows from its own to the last one its rowspan covers, together, and as wide as the columns its colspan covers, together, so that its right edge is the left edge of the column behind it. The widths are stated for rows that no rowspan of an earlier row reaches and for cells of one column; in other rows placeholders may be separated (C36). In float64 arithmetic both edges are the exact one up to a relative 2^-50 per column.", "quantifier": "every table, engine, state and style; heights for every cell", "why_tests_cant": "Quantifies over all tables and spans.", "anchors": ["table.go:tableCell.dim", "table.go:processSpans", "table.go:renderTable"]}
{"id": "C94", "title": "What the PDF engine paints", "statement": "On a library whose drawing methods behave as gofpdf documents them, the drawing commands sent to the PDF engine paint exactly what they say: a box becomes one filled rectangle in the background colour and one line per enabled border in the foreground colour and line width, an image is placed at the cursor plus offset in its proportions within the area, and fonts and text colours are those asked for, in a style letter combination that was registered.", "quantifier": "every library with the documented drawing methods, every state, every command sequence, every box, style and image", "why_tests_cant": "Universal over library states and command sequences; the generated PDF is compressed and not compared by any test.", "anchors": ["engine/fpdf.go:FillRect", "engine/fpdf.go:DrawPath", "engine/fpdf.go:PutImage", "engine/fpdf.go:ChangeFont", "draw.go:drawBox", "image.go:renderImage"]}
{"id": "C95", "title": "The same input gives the same document", "statement": "Loading and processing a document does not depend on the iteration orders of Go's maps: two runs on the same input either both fail to load, or both load, and then Process makes exactly the same calls of the engine with the same arguments, returns the same result and leaves the engine in the same state, although the loaded values (the mutators of elements and classes) may differ.", "quantifier": "every input, every iteration order of every map during loading (style attributes, class sheet) and processing (grids), every engine, engine state, hyphenator, file resolver, image directory and depth of callbacks", "why_tests_cant": "Go randomises map iteration; a test sees a few of the exponentially many combinations of orders, and cannot choose them.", "anchors": ["style/decode.go:DecodeMutator", "style/class.go:DecodeClasses", "xdoc/style.go:Styled.DecodeAttrs", "xdoc/doc.go:Load", "process.go:Process", "grid.go:renderGrid"]}
{"id": "C96", "title": "Descriptions are dumped completely", "statement": "The XML that Dump writes for the description of a loaded document is never empty and can be read back: its elements nest, and it shows every item of the description in order with its name, value, style differences and sub-items, each text exactly as it was but for characters that XML cannot express, which become U+FFFD, whatever markup characters the texts contain. After whatever loading prints (C112) the command cmd/describe prints exactly this and exits with 0, or prints the error and exits with 2 if the document cannot be loaded.", "quantifier": "every document (floats as binary64, including NaN and infinities), every style, every map iteration order, every byte sequence in texts and names, every way of formatting floats, every command line", "why_tests_cant": "Dump ignores the error of the encoder and would print nothing for a value of an unsupported type (a JSON object), which tests with ordinary styles cannot rule out; texts are arbitrary bytes.", "anchors": ["xdoc/describe.go:Dump", "xdoc/describe.go:describeMutator", "xdoc/diff.go:interfaceDiff", "cmd/describe/main.go:main"]}
{"id": "C97", "title": "The letters of a file reach the pages", "statement": "If Load accepts a file and Process runs to the end, then the texts written on the pages, blanks aside, are the letters of the body of the file in order and nothing else: the character data and paragraphs of its texts and boxes, and of the cells of its tables row by row, each cell followed by its boxes; the tags of unknown elements in cells do not matter. The same holds for each time a header or footer is drawn. This is said of sections without page numbers {cp} and repeated table headers, in which style attributes are well-formed and no text is justified; if text is justified and the hyphenator loses nothing, the letters come with hyphens inserted.", "quantifier": "every token sequence of the XML decoder, every engine with the stated laws, every hyphenator, every map iteration order, every float parsing function, all layouts and page breaks", "why_tests_cant": "It relates any input file to the output through loading, the style cascade, layout, line breaking, tables and page breaks; tests can compare only a few files.", "anchors": ["xdoc/doc.go:Load", "xdoc/instructions.go:UnmarshalXML", "xdoc/table.go:UnmarshalXML", "process.go:Process", "text.go:renderText", "table.go:renderTable"]}
{"id": "C98", "title": "Printed words stay inside their text", "statement": "Each row of words printed for a text, a text box or a table cell lies between the left and the right edge of the text (inside the padding of the frame), and the words of a row do not overlap: each one begins right of the end of the one before. This holds for left, centre, right and block alignment, with page breaks in the middle of the text. A word that does not fit with a blank in front of it and stands alone in its row is excepted.", "quantifier": "every text, width, style and alignment, fonts whose blanks are at least 0.1 wide, every hyphenator that puts no line feeds into words (those of the program do not), every engine that prints from left to right and measures by the font (the PDF engine on gofpdf as documented is one), every state and everything headers and footers do at a page break", "why_tests_cant": "It relates measured widths, line breaking, alignment and justification to the positions of every printed word, for every text and font.", "anchors": ["text.go:textLines", "text.go:writeText", "text-hyph.go:writeTextHyphenated", "process.go:renderTextBox", "table.go:renderCell", "engine/fpdf.go:WriteText"]}
{"id": "C99", "title": "Lines are aligned to the edges of the text", "statement": "A left-aligned line begins at the left edge of the text, a right-aligned line ends at the right edge, and a centred line has as much space on its left as on its right.", "quantifier": "every text whose lines fit, every width and style, every engine that prints from left to right and measures by the font", "why_tests_cant": "The deviation is the width of one blank in the font of the first word of each line; it is seen only by comparing printed positions with the edges for arbitrary fonts.", "anchors": ["text.go:textLines", "text.go:writeText"]}
{"id": "C100", "title": "Lines of a text do not overlap", "statement": "With a line spacing of 1 or more the cursor moves down after each line of a text by at least the height of every word of the line.", "quantifier": "every text, with paragraphs of any font size in it, every width, style, alignment, hyphenator and engine", "why_tests_cant": "The distance is taken from the font that happens to be set when the line ends; only texts mixing font sizes, broken at the right place, show it.", "anchors": ["text.go:writeText", "text-hyph.go:writeTextHyphenated", "engine/fpdf.go:LineFeed"]}
{"id": "C101", "title": "Descriptions can be dumped as JSON", "statement": "Dump with a format other than xml returns JSON that can be read back and shows every item of the description, in order, with its value, its style differences and its sub-items.", "quantifier": "every document, every content of its texts (any bytes), every map iteration order", "why_tests_cant": "Numbers come from attributes and may be NaN or infinite, texts may hold any bytes; the error of the encoder is dropped, so the failure is an empty string.", "anchors": ["xdoc/describe.go:Dump", "xdoc/describe.go:Describe"]}
{"id": "C102", "title": "Words are printed in the font and colour of their element", "statement": "Every word of a document, its header and its footer is printed in the font and the text colour that the styles of its element (the text, box or cell, or the paragraph inside it) give it, each word once and in order; in block text a word may be divided where the hyphenator allows it, both pieces in the same font and colour.", "quantifier": "every document, every engine whose page number does not depend on the font and that reads coordinates back, every page on which header and footer are drawn, every map iteration order", "why_tests_cant": "Font and colour are state of the engine that earlier texts, headers and footers leave behind; tests would have to combine all nestings of styles, line breaks and page breaks.", "anchors": ["text.go:writeText", "text-hyph.go:writeTextHyphenated", "process.go:changeFont"]}
{"id": "C103", "title": "{cp} shows the number of the page it is printed on", "statement": "Wherever {cp} occurs in a text of the document, its header or its footer, the word printed in its place shows the number of the page the word is printed on.", "quantifier": "every document, every engine that numbers its pages (only beginning a page changes the number, by one), every place at which the engine begins a page by itself, every page on which header and footer are drawn", "why_tests_cant": "The number is replaced when the text is broken into lines, the page is chosen when each word is written; which texts straddle a page end depends on fonts, sizes and all the content before.", "anchors": ["process.go:tr", "text.go:textLines", "text.go:writeText", "text-hyph.go:writeTextHyphenated"]}
{"id": "C104", "title": "The debug text of a table shows its grid", "statement": "dumpTableSpans prints a text from which the grid can be read back: as many rows as the rows and row spans of the document need, all of the same length, every entry naming its own position; in each row the entries of cells are those of the document's cells in order, with their spans; every entry marked as spanned names the position of a cell; and a cell with a column span c and a row span r has c - 1 spanned entries in its row, one in each of the following r - 1 rows and none elsewhere.", "quantifier": "every non-empty list of rows with any spans, every style, every engine", "why_tests_cant": "Spans can overlap, exceed the table and be negative; the grid is formed by several passes over shared cells, and tests check a few layouts.", "anchors": ["table.go:dumpTableSpans", "table.go:dumpRowSpans", "table.go:transformTable"]}
{"id": "C105", "title": "The debug texts of sizes show them to a tenth", "statement": "dumpTableDims shows for each cell, at its position, its width, height and minimal height, and PrintableArea.String the four coordinates of the area; each number shown differs from the float64 by at most 1/20, provided the numbers are finite.", "quantifier": "every table with at least one row and every area whose numbers are finite float64 numbers, every engine", "why_tests_cant": "Rounding, carries and signs vary over all float64 numbers.", "anchors": ["table.go:dumpTableDims", "table.go:dumpRowDims", "dim.go:String"]}
{"id": "C106", "title": "Text stays inside its frame, from top to bottom", "statement": "The words of a text box, of a table cell and of every cell of a row are written between the upper and the lower edge of the padding of the frame drawn around them, whatever the vertical alignment, the spans of the cell and the heights of the neighbouring cells: no line begins above and none ends below. This is for boxes and cells without a height of their own, with text in fonts of one height, no page number in the text, and, in cells with block text, vertical alignment at the top (C41, C86 and C100 show what happens otherwise), and for cells without boxes and images inside.", "quantifier": "every box and every table that can be laid out, every such text, width, padding, line spacing and alignment, every position on the page, every hyphenator; all engines that measure by the font set last; exact arithmetic and float64", "why_tests_cant": "Cells are measured when the table is laid out and written later, with other code and other states of the engine; that both agree is a statement about all texts and all states.", "anchors": ["table.go:renderCell", "table.go:assignCellMinHeight", "process.go:renderTextBox", "text.go:textHeight", "text.go:writeText", "text-hyph.go:writeTextHyphenated"]}
{"id": "C107", "title": "What the image command prints can be read back", "statement": "Without argument, cmd/image prints its usage and exits with 1; if the file cannot be opened or its header not decoded it prints that error and exits with 2; otherwise it prints exactly three lines, holding its argument and the image format as string literals of Go, which denote those very bytes, and the width and height as decimal numbers, and exits with 0.", "quantifier": "every argument list, file name and format of any bytes (quotes, line feeds and invalid UTF-8 included), every size, every behaviour of the file system and of the image decoders, every notion of a printable character that leaves out the line feed", "why_tests_cant": "File names are arbitrary bytes; that each has one reading after quoting, on one line, is a statement about all of them.", "anchors": ["cmd/image/main.go:main"]}
{"id": "C108", "title": "Everything a document draws, in order", "statement": "Run to the end, Process has drawn the texts, boxes, images and table cells of the document in the order of the document, each once, and nothing else: of a box or cell first the background, then the enabled sides of its border, then the words of its text; the boxes and images of a cell after its text; an image once if its file can be read, otherwise not at all; header rows of a table again where a page is begun. The same holds for each time the header or footer is drawn, also in the middle of drawing another page's.", "quantifier": "every document, every engine that reads coordinates back and whose page number does not depend on the font, every page break, every map iteration order, every style and every set of readable images", "why_tests_cant": "What covers what depends on the order of all engine calls, and a shape drawn twice or left over from an unfinished path shows only for particular nestings and page breaks; tests look at a few documents.", "anchors": ["process.go:Process", "process.go:renderTextBox", "image.go:renderImage", "table.go:renderTable", "table.go:renderCell", "draw.go:drawBox"]}
{"id": "C109", "title": "Headers and footers are the same on every page", "statement": "A header or footer without page numbers prints the same words in the same fonts and colours on every page of a document.", "quantifier": "every document, every engine that reads coordinates back and whose page number does not depend on the font, every two pages, every content before and between them", "why_tests_cant": "The font in effect when a page is begun depends on everything printed before; tests check a few documents, mostly with one font.", "anchors": ["process.go:Process", "process.go:changeFont", "process.go:renderText", "text.go:writeText"]}
{"id": "C110", "title": "What comes later in a document does not change what was drawn before", "statement": "If the body of a document is extended at its end, Process makes, up to writing the file, first the engine calls it made for the shorter document, including those in headers and footers, and then the others; everything the shorter document draws is drawn first and in the same way. Two documents that begin alike have the same engine calls for the common beginning.", "quantifier": "every document, every extension of its body, every engine and map order", "why_tests_cant": "A look ahead, or state kept between elements and changed by later ones, would show up only in particular combinations of elements; tests compare single outputs, not all pairs of documents.", "anchors": ["process.go:Process", "process.go:processInstructions"]}
{"id": "C111", "title": "A document asks only for fonts made from its own styles", "statement": "Every font Process asks of the engine, in the body, in headers and footers, for measuring and for writing, is the default font or results from it by applying styles of the document: it lies in every set of fonts that contains the default font and is kept by the styles of all elements. In particular every font family asked for is Arial or one that a style text or class of the document names, a document that sets no font is set in the default font throughout, and if Arial and the families named are registered in all four styles, every font asked for has been registered.", "quantifier": "every document, every set of fonts, every engine and map order", "why_tests_cant": "Placeholder cells of spans carry an empty style with an empty font, and styles are handed from element to element; a font leaking from there would need just the right combination of spans, headers and page breaks.", "anchors": ["text.go:changeFont", "table.go:transformTable", "process.go:resetStyles", "process.go:Process", "font/registry.go:EachFont"]}
{"id": "C112", "title": "The command describe prints XML and nothing else", "statement": "For every document that can be loaded, what cmd/describe prints can be read as XML: loading prints nothing.", "quantifier": "every document (every token stream), every class sheet, every way of formatting floats, every map iteration order", "why_tests_cant": "The line comes from deep inside the decoder of class sheets and only if a class has a selector; tests look at the returned values, and none runs the command on such a document.", "anchors": ["cmd/describe/main.go:main", "xdoc/doc.go:Load", "style/class.go:DecodeClasses"]}
{"id": "C113", "title": "The command reports the step that fails", "statement": "If a step of cmd/xpdf fails, the last line it prints names that step with its error and the exit code is the one of the step: 2 for loading the document, creating the output file and loading the fonts, 3 for the engine, 4 for processing. If no step fails it exits with 0 and prints nothing of its own. Before its own line it prints exactly what loading prints and, if processing is reached, what processing prints. Exit code and files are as in C83 and C84.", "quantifier": "all arguments, files and outcomes of the steps, every error text", "why_tests_cant": "No test runs the command, and each step would have to be made to fail after the ones before it succeed, with every kind of output before.", "anchors": ["cmd/xpdf/main.go:main"]}
{"id": "C114", "title": "Elements that cannot be drawn change nothing", "statement": "Images that cannot be read, grids, texts without content, and elements outside the text, table or grid they belong into can be removed from the header, the footer and the body of a document without any effect: Process makes the same engine calls, returns the same result and fails in the same cases. In particular a missing image is no error, and nothing after it moves.", "quantifier": "every document, every choice of such elements in header, footer and body, every engine and map order", "why_tests_cant": "An element that should do nothing could still move the cursor, change a style or end the page in some documents; tests would have to compare all documents with and without it.", "anchors": ["process.go:processInstructions", "image.go:renderImage", "grid.go:renderGrid", "process.go:renderText"]}
{"id": "C115", "title": "An appended mutator wins", "statement": "After m.Append(other), applying m to a Styles value never panics; every property has the value other's text gives it, if other's text sets it, else the value m's text gives it, else its old value.", "quantifier": "every pair of decodable style texts and every Styles value", "why_tests_cant": "All pairs of style texts and all styles; the order of the assignments inside a mutator is the random order of a map.", "anchors": ["style/decode.go:Append", "style/decode.go:Mutate"]}
{"id": "C116", "title": "Page breaks are suppressed in headers and footers only", "statement": "However headers and footers were drawn before, every instruction of the body is processed with page breaks allowed and with the default style but for the font; so every box of the body ends above the bottom margin, up to its padding and offset, if its text fits on a page; and every table row of the body ends above the bottom margin if it fits below the repeated header rows at the top of a page.", "quantifier": "every document, every position in its body, every header and footer, every engine", "why_tests_cant": "The flag that suppresses page breaks is shared by the body, headers and footers, which run inside page breaks of the body at any place.", "anchors": ["process.go:Process", "process.go:renderTextBox"]}
