{
 "C06": {
  "note": "False of the code: refuted with the built-in English table (\"applications\" loses its final s). Proved where it holds (words with a multi-byte letter); C07 characterises the loss for all words."
 },
 "C09": {
  "note": "False of the code: refuted with the built-in English table. Proved for ASCII words and for words whose cut offsets lie on rune boundaries."
 },
 "C14": {
  "note": "False of the code: a line of 64 KiB or more silently ends the file; the truncation is characterised exactly."
 },
 "C29": {
  "note": "False of the code: an image started low on the page runs off its bottom (RefEngine witness). Proved instead: it overshoots by at most the cursor's distance from the top."
 },
 "C31": {
  "note": "False of the code: renderGrid only checks the grid. Proved instead: a grid makes no engine call and changes no state."
 },
 "C36": {
  "note": "False of the code: refuted for a 2x2 cell (its lower right quarter is not reserved) and for staggered row spans. Proved for tables where no cell spans both ways and rows reached by a row span hold plain cells only."
 },
 "C39": {
  "note": "False of the code: refuted when the requested widths exceed the table width. Proved when they do not."
 },
 "C41": {
  "note": "Proved for every cell without a height of its own. A cell with a height style gets at least that height, which may be less than its text needs (refuted)."
 },
 "C43": {
  "status": "partial",
  "note": "The schedule of C42_schedule states where page breaks are made and what is repeated after them, for every table and engine. Proved that a table whose cells hold no boxes breaks the page nowhere else; false otherwise (C43_box_refuted)."
 },
 "C44": {
  "note": "False of the code: the fit is not checked again after repeating header rows (RefEngine witness). Proved for rows that fit below the repeated header rows at the top of a page."
 },
 "C47": {
  "note": "False of the code: a word wider than the line is preceded by a blank line. Proved for texts whose words fit on a line of their own."
 },
 "C48": {
  "note": "False of the code with the built-in English patterns, because Hyphenate loses final letters (C06). Proved for every hyphenator that is lossless on the words of the text; C48_rules states the division of words for every hyphenator."
 },
 "C51": {
  "note": "False of the code: the mark is put on the line before the one that ends with the line break. Proved for texts without line breaks; C48_rules states the marks exactly for every text."
 },
 "C53": {
  "note": "False of the code: an empty text measures minus half a line with the default style. Proved for texts with a word or a line break, and for line spacings up to 1, for exact numbers and for binary64 floats (C53_float_partial)."
 },
 "C56": {
  "status": "partial",
  "note": "False of the code: the font of the last word written stays the ambient font. Proved instead: exactly which font a text leaves behind."
 },
 "C58": {
  "status": "partial",
  "note": "False of the code when a callback is interrupted by another callback (which enables page breaks again). Proved for callbacks not interrupted, on every engine."
 },
 "C60": {
  "status": "partial",
  "note": "False of the code: with a newpage in the header Process does not return, for every document and every engine that calls the header function for each page (C60_loops)."
 },
 "C63": {
  "status": "partial",
  "note": "False of the code: the padding is ignored when deciding whether a box fits. Proved: the frame reaches below the bottom margin by less than padding and offset, over exact numbers."
 },
 "C67": {
  "status": "partial",
  "note": "The bound is proved for every table of every loaded document. That other values make Load fail is proved for tables with only boxes, texts, tables and rows around them; false in general: inside a cell or grid part such a table is silently left out (C67_refuted)."
 },
 "C69": {
  "status": "partial",
  "note": "C69_load states exactly what is loaded, for every token stream; nothing is lost in header, footer, body, box, text, table and row. False for cells: children with bad attributes are left out (C69_refuted)."
 },
 "C70": {
  "status": "partial",
  "note": "Proved for every document: names, values, style differences and children of the items. False only for rows, cells, grid rows and grid parts outside their table or grid, which are loaded but not shown (C70_refuted)."
 },
 "C71": {
  "status": "partial",
  "note": "False of the code: the left entry shows the right margin. Proved for the other three; the left entry is right exactly if both margins are equal."
 },
 "C72": {
  "status": "partial",
  "note": "Proved for every style without NaN or infinite numbers, over binary64. Otherwise false: only an error entry is shown, which depends on the map order (C72_not_finite, C72_refuted)."
 },
 "C75": {
  "note": "False of the code: run on x.pdf in the working directory, the command overwrites it. Proved instead: this happens exactly for inputs named *.pdf that lie in the working directory, however their path is written."
 },
 "C84": {
  "note": "False of the code: the output file is created before the fonts are loaded, so a run that fails later leaves it empty. Proved instead: it is unchanged if the input cannot be loaded or the output not created, and what it holds after any failure."
 },
 "C21": {
  "note": "False of the code: text after the fourth number of a border or padding is silently ignored. Proved instead: exactly what is ignored (C21_garbage_ignored)."
 },
 "C86": {
  "note": "False of the code for block text: its height is measured without hyphenation, refuted by a table whose first cell is written above the page. False in float64 also for other texts: the inner width of the cell is rounded differently for measuring and for writing, so that a text measured as one line is written as two (C86_float_refuted). Proved for all texts that are not block text, in exact arithmetic, and in float64 up to rounding if both widths are the same float (C86_float_partial)."
 },
 "C99": {
  "note": "False of the code: the width of a line counts a blank in front of its first word that is not printed, so right-aligned lines end one blank left of the edge and centred lines have one blank more space on the right (C99_refuted). Proved: left-aligned lines, and the exact deviation of the others."
 },
 "C100": {
  "note": "False of the code: the line feed after a line is taken from the font of its last word, so a line with a larger word before a smaller one is overprinted (C100_refuted: 40 points, next line 18 points below). Proved: the exact distance (C100_feeds_partial), and that lines of one font height do not overlap (C100_below_partial)."
 },
 "C101": {
  "note": "False of the code: if any number shown is NaN or infinite (a margin, setx, sety or linefeed of \"NaN\"), encoding/json fails, the error is dropped and the result is empty (C101_refuted). Proved: with finite numbers the JSON is read back completely, otherwise nothing is dumped (C101_dump_partial, C101_items_partial)."
 },
 "C102": {
  "note": "False of the code: writeText and writeTextHyphenated set the text colour once, to that of the enclosing text, so the text colour of a paragraph inside a text, box or cell is ignored (C102_refuted: a red paragraph is printed black). Proved: every word is printed in the font of its element and in the colour of the text, box or cell it is in, in the body (C102_document_partial) and in headers and footers (C102_header_footer_partial)."
 },
 "C103": {
  "note": "False of the code: {cp} is replaced when a text is broken into lines, before the engine may begin a new page for a line (C103_refuted: '1' printed on page 2). Proved: all words of a text show the number of the page on which its first word was asked for, in the body (C103_document_partial) and in headers and footers (C103_header_footer_partial); a header or footer that begins no page itself shows the number of its own page (C103_header_footer); the PDF engine obeys the page law if gofpdf does (C103_pdf)."
 },
 "C109": {
  "note": "False of the code: writing a text leaves its font in the Processor (C56), and headers and footers start from it (C109_refuted: a text in 30 point makes the next page's header large). Proved: texts and boxes that set the font themselves, not justified, are printed alike on all pages (C109_same_partial). Not said of tables in headers."
 },
 "C112": {
  "note": "False of the code: DecodeClasses prints a line to standard output for every selector it reads (style/class.go:97), so the output of cmd/describe is not XML for documents with selectors (C112_refuted). Proved: exactly these lines are printed, in the order of the rules, and then the XML; without selectors nothing but the XML (C112_command_partial, C112_load, C112_sheet)."
 },
 "C106": {
  "note": "False of the code in float64: the inner width of a cell is rounded differently when the height of its row is computed and when its text is written, so that a text given the height of one line is written as two, the second below the frame (C106_float_refuted). Proved in exact arithmetic."
 }
}
