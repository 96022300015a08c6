{
 "claims": [
  {
   "property": "C01",
   "status": "proved",
   "theorems": [
    "C01_whitespace_normal_form"
   ],
   "note": ""
  },
  {
   "property": "C02",
   "status": "proved",
   "theorems": [
    "C02_whitespace_words",
    "C02_whitespace_nonblank"
   ],
   "note": ""
  },
  {
   "property": "C03",
   "status": "proved",
   "theorems": [
    "C03_whitespace_idempotent",
    "C03_whitespace_fixed"
   ],
   "note": ""
  },
  {
   "property": "C04",
   "status": "proved",
   "theorems": [
    "C04_remove_twins_terminates",
    "C04_remove_twins_none_left",
    "C04_remove_twins_unchanged",
    "C04_remove_twins_collapse"
   ],
   "note": ""
  },
  {
   "property": "C05",
   "status": "proved",
   "theorems": [
    "C05_hyphenate_no_panic",
    "C05_unloaded_lookup_panics"
   ],
   "note": ""
  },
  {
   "property": "C06",
   "status": "partial",
   "theorems": [
    "C06_hyphenate_lossless_refuted",
    "C06_hyphenate_lossless_multibyte"
   ],
   "note": "False of the code: refuted with the built-in English table (\"applications\" loses its final s). Proved where it holds (words with a multi-byte letter); C07 characterises the loss for all words."
  },
  {
   "property": "C07",
   "status": "proved",
   "theorems": [
    "C07_hyphenate_loses_at_most_last",
    "C07_hyphenate_loss_iff"
   ],
   "note": ""
  },
  {
   "property": "C08",
   "status": "proved",
   "theorems": [
    "C08_hyphenate_liang",
    "C08_liang_cuts_unique",
    "C08_hyphenate_parts_two_bytes",
    "C08_hyphenate_whole"
   ],
   "note": ""
  },
  {
   "property": "C09",
   "status": "partial",
   "theorems": [
    "C09_hyphenate_utf8_refuted",
    "C09_hyphenate_utf8_ascii",
    "C09_hyphenate_utf8_boundary"
   ],
   "note": "False of the code: refuted with the built-in English table. Proved for ASCII words and for words whose cut offsets lie on rune boundaries."
  },
  {
   "property": "C10",
   "status": "proved",
   "theorems": [
    "C10_hyphenate_case"
   ],
   "note": ""
  },
  {
   "property": "C11",
   "status": "proved",
   "theorems": [
    "C11_pattern_roundtrip",
    "C11_pattern_wellformed",
    "C11_pattern_meaning"
   ],
   "note": ""
  },
  {
   "property": "C12",
   "status": "proved",
   "theorems": [
    "C12_pattern_rejects",
    "C12_pattern_no_length_error",
    "C12_load_rejects"
   ],
   "note": ""
  },
  {
   "property": "C13",
   "status": "proved",
   "theorems": [
    "C13_load_last_definition"
   ],
   "note": ""
  },
  {
   "property": "C14",
   "status": "partial",
   "theorems": [
    "C14_load_complete_refuted",
    "C14_load_truncation"
   ],
   "note": "False of the code: a line of 64 KiB or more silently ends the file; the truncation is characterised exactly."
  },
  {
   "property": "C15",
   "status": "proved",
   "theorems": [
    "C15_en_us_complete",
    "C15_latin_complete"
   ],
   "note": ""
  },
  {
   "property": "C16",
   "status": "proved",
   "theorems": [
    "C16_order_independent"
   ],
   "note": ""
  },
  {
   "property": "C17",
   "status": "proved",
   "theorems": [
    "C17_sets_exactly",
    "C17_properties_complete",
    "C17_last_decl_functional",
    "C17_items",
    "C17_stripped"
   ],
   "note": ""
  },
  {
   "property": "C18",
   "status": "proved",
   "theorems": [
    "C18_rejects_exactly"
   ],
   "note": ""
  },
  {
   "property": "C19",
   "status": "proved",
   "theorems": [
    "C19_colour_accepts_exactly",
    "C19_colour_range",
    "C19_colour_round_trip"
   ],
   "note": ""
  },
  {
   "property": "C20",
   "status": "proved",
   "theorems": [
    "C20_integers_exactly",
    "C20_border_round_trip",
    "C20_padding_round_trip",
    "C20_too_few"
   ],
   "note": ""
  },
  {
   "property": "C21",
   "status": "partial",
   "theorems": [
    "C21_rejects_garbage_refuted",
    "C21_garbage_ignored"
   ],
   "note": "False of the code: text after the fourth number of a border or padding is silently ignored. Proved instead: exactly what is ignored (C21_garbage_ignored)."
  },
  {
   "property": "C22",
   "status": "proved",
   "theorems": [
    "C22_sheet_round_trip",
    "C22_errors_exactly",
    "C22_sheet_functional"
   ],
   "note": ""
  },
  {
   "property": "C23",
   "status": "proved",
   "theorems": [
    "C23_total"
   ],
   "note": ""
  },
  {
   "property": "C24",
   "status": "proved",
   "theorems": [
    "C24_cascade",
    "C24_attrs_refused",
    "C24_class_list"
   ],
   "note": ""
  },
  {
   "property": "C25",
   "status": "proved",
   "theorems": [
    "C25_selector"
   ],
   "note": ""
  },
  {
   "property": "C26",
   "status": "proved",
   "theorems": [
    "C26_effective_width",
    "C26_never_exceeds",
    "C26_page"
   ],
   "note": ""
  },
  {
   "property": "C27",
   "status": "proved",
   "theorems": [
    "C27_box",
    "C27_right_edge"
   ],
   "note": ""
  },
  {
   "property": "C28",
   "status": "proved",
   "theorems": [
    "C28_float",
    "C28_image",
    "C28_unreadable"
   ],
   "note": ""
  },
  {
   "property": "C29",
   "status": "partial",
   "theorems": [
    "C29_refuted",
    "C29_bound_partial"
   ],
   "note": "False of the code: an image started low on the page runs off its bottom (RefEngine witness). Proved instead: it overshoots by at most the cursor's distance from the top."
  },
  {
   "property": "C30",
   "status": "proved",
   "theorems": [
    "C30_rectangles"
   ],
   "note": ""
  },
  {
   "property": "C31",
   "status": "partial",
   "theorems": [
    "C31_refuted",
    "C31_no_effect"
   ],
   "note": "False of the code: renderGrid only checks the grid. Proved instead: a grid makes no engine call and changes no state."
  },
  {
   "property": "C32",
   "status": "proved",
   "theorems": [
    "C32_total",
    "C32_rectangular",
    "C32_tight"
   ],
   "note": ""
  },
  {
   "property": "C33",
   "status": "proved",
   "theorems": [
    "C33_cells_kept",
    "C33_added_blank"
   ],
   "note": ""
  },
  {
   "property": "C34",
   "status": "proved",
   "theorems": [
    "C34_owned",
    "C34_owner",
    "C34_row_count",
    "C34_order"
   ],
   "note": ""
  },
  {
   "property": "C35",
   "status": "proved",
   "theorems": [
    "C35_tiling"
   ],
   "note": ""
  },
  {
   "property": "C36",
   "status": "partial",
   "theorems": [
    "C36_block_refuted",
    "C36_staggered_refuted",
    "C36_disjoint_partial"
   ],
   "note": "False of the code: refuted for a 2x2 cell (its lower right quarter is not reserved) and for staggered row spans. Proved for tables where no cell spans both ways and rows reached by a row span hold plain cells only."
  },
  {
   "property": "C37",
   "status": "proved",
   "theorems": [
    "C37_float",
    "C37_column_widths"
   ],
   "note": ""
  },
  {
   "property": "C38",
   "status": "proved",
   "theorems": [
    "C38_float",
    "C38_fill"
   ],
   "note": ""
  },
  {
   "property": "C39",
   "status": "partial",
   "theorems": [
    "C39_float_partial",
    "C39_refuted",
    "C39_nonnegative_partial"
   ],
   "note": "False of the code: refuted when the requested widths exceed the table width. Proved when they do not."
  },
  {
   "property": "C40",
   "status": "proved",
   "theorems": [
    "C40_float",
    "C40_row_heights"
   ],
   "note": ""
  },
  {
   "property": "C41",
   "status": "partial",
   "theorems": [
    "C41_float_partial",
    "C41_own_height_float",
    "C41_measured_partial",
    "C41_all_measured",
    "C41_own_height",
    "C41_refuted"
   ],
   "note": "Proved for every cell without a height of its own. A cell with a height style gets at least that height, which may be less than its text needs (refuted)."
  },
  {
   "property": "C42",
   "status": "proved",
   "theorems": [
    "C42_schedule",
    "C42_tallest",
    "C42_float"
   ],
   "note": ""
  },
  {
   "property": "C43",
   "status": "partial",
   "theorems": [
    "C43_page_breaks_partial",
    "C43_box_refuted"
   ],
   "note": "The schedule of C42_schedule states where page breaks are made and what is repeated after them, for every table and engine. Proved that a table whose cells hold no boxes breaks the page nowhere else; false otherwise (C43_box_refuted)."
  },
  {
   "property": "C44",
   "status": "partial",
   "theorems": [
    "C44_refuted",
    "C44_fits_partial"
   ],
   "note": "False of the code: the fit is not checked again after repeating header rows (RefEngine witness). Proved for rows that fit below the repeated header rows at the top of a page."
  },
  {
   "property": "C45",
   "status": "proved",
   "theorems": [
    "C45_words"
   ],
   "note": ""
  },
  {
   "property": "C46",
   "status": "proved",
   "theorems": [
    "C46_float",
    "C46_fits",
    "C46_greedy"
   ],
   "note": ""
  },
  {
   "property": "C47",
   "status": "partial",
   "theorems": [
    "C47_refuted",
    "C47_blank_partial",
    "C47_no_breaks_partial"
   ],
   "note": "False of the code: a word wider than the line is preceded by a blank line. Proved for texts whose words fit on a line of their own."
  },
  {
   "property": "C48",
   "status": "partial",
   "theorems": [
    "C48_refuted",
    "C48_letters_partial",
    "C48_rules"
   ],
   "note": "False of the code with the built-in English patterns, because Hyphenate loses final letters (C06). Proved for every hyphenator that is lossless on the words of the text; C48_rules states the division of words for every hyphenator."
  },
  {
   "property": "C49",
   "status": "proved",
   "theorems": [
    "C49_float",
    "C49_block_fits"
   ],
   "note": ""
  },
  {
   "property": "C50",
   "status": "proved",
   "theorems": [
    "C50_float",
    "C50_filled"
   ],
   "note": ""
  },
  {
   "property": "C51",
   "status": "partial",
   "theorems": [
    "C51_refuted",
    "C51_last_partial"
   ],
   "note": "False of the code: the mark is put on the line before the one that ends with the line break. Proved for texts without line breaks; C48_rules states the marks exactly for every text."
  },
  {
   "property": "C52",
   "status": "proved",
   "theorems": [
    "C52_float",
    "C52_height"
   ],
   "note": ""
  },
  {
   "property": "C53",
   "status": "partial",
   "theorems": [
    "C53_float_partial",
    "C53_refuted",
    "C53_height_partial"
   ],
   "note": "False of the code: an empty text measures minus half a line with the default style. Proved for texts with a word or a line break, and for line spacings up to 1, for exact numbers and for binary64 floats (C53_float_partial)."
  },
  {
   "property": "C54",
   "status": "proved",
   "theorems": [
    "C54_text",
    "C54_block_text"
   ],
   "note": ""
  },
  {
   "property": "C55",
   "status": "proved",
   "theorems": [
    "C55_ambient",
    "C55_process"
   ],
   "note": ""
  },
  {
   "property": "C56",
   "status": "partial",
   "theorems": [
    "C56_refuted",
    "C56_text_partial"
   ],
   "note": "False of the code: the font of the last word written stays the ambient font. Proved instead: exactly which font a text leaves behind."
  },
  {
   "property": "C57",
   "status": "proved",
   "theorems": [
    "C57_cursor"
   ],
   "note": ""
  },
  {
   "property": "C58",
   "status": "partial",
   "theorems": [
    "C58_refuted",
    "C58_uninterrupted_partial"
   ],
   "note": "False of the code when a callback is interrupted by another callback (which enables page breaks again). Proved for callbacks not interrupted, on every engine."
  },
  {
   "property": "C59",
   "status": "proved",
   "theorems": [
    "C59_terminates"
   ],
   "note": ""
  },
  {
   "property": "C60",
   "status": "partial",
   "theorems": [
    "C60_loops",
    "C60_refuted"
   ],
   "note": "False of the code: with a newpage in the header Process does not return, for every document and every engine that calls the header function for each page (C60_loops)."
  },
  {
   "property": "C61",
   "status": "proved",
   "theorems": [
    "C61_written_once"
   ],
   "note": ""
  },
  {
   "property": "C62",
   "status": "proved",
   "theorems": [
    "C62_inner",
    "C62_in_order"
   ],
   "note": ""
  },
  {
   "property": "C63",
   "status": "partial",
   "theorems": [
    "C63_float_partial",
    "C63_refuted",
    "C63_bottom_partial"
   ],
   "note": "False of the code: the padding is ignored when deciding whether a box fits. Proved: the frame reaches below the bottom margin by less than padding and offset, over exact numbers."
  },
  {
   "property": "C64",
   "status": "proved",
   "theorems": [
    "C64_box"
   ],
   "note": ""
  },
  {
   "property": "C65",
   "status": "proved",
   "theorems": [
    "C65_restored"
   ],
   "note": ""
  },
  {
   "property": "C66",
   "status": "proved",
   "theorems": [
    "C66_placeholder",
    "C66_decimal"
   ],
   "note": ""
  },
  {
   "property": "C67",
   "status": "partial",
   "theorems": [
    "C67_bounded",
    "C67_fails_partial",
    "C67_refuted"
   ],
   "note": "The bound is proved for every table of every loaded document. That other values make Load fail is proved for tables with only boxes, texts, tables and rows around them; false in general: inside a cell or grid part such a table is silently left out (C67_refuted)."
  },
  {
   "property": "C68",
   "status": "proved",
   "theorems": [
    "C68_fails",
    "C68_skipped"
   ],
   "note": ""
  },
  {
   "property": "C69",
   "status": "partial",
   "theorems": [
    "C69_load",
    "C69_integers",
    "C69_numbers",
    "C69_areas",
    "C69_refuted"
   ],
   "note": "C69_load states exactly what is loaded, for every token stream; nothing is lost in header, footer, body, box, text, table and row. False for cells: children with bad attributes are left out (C69_refuted)."
  },
  {
   "property": "C70",
   "status": "partial",
   "theorems": [
    "C70_describe_partial",
    "C70_refuted"
   ],
   "note": "Proved for every document: names, values, style differences and children of the items. False only for rows, cells, grid rows and grid parts outside their table or grid, which are loaded but not shown (C70_refuted)."
  },
  {
   "property": "C71",
   "status": "partial",
   "theorems": [
    "C71_margins_partial",
    "C71_refuted"
   ],
   "note": "False of the code: the left entry shows the right margin. Proved for the other three; the left entry is right exactly if both margins are equal."
  },
  {
   "property": "C72",
   "status": "partial",
   "theorems": [
    "C72_changes_partial",
    "C72_styles_diff",
    "C72_not_finite",
    "C72_refuted"
   ],
   "note": "Proved for every style without NaN or infinite numbers, over binary64. Otherwise false: only an error entry is shown, which depends on the map order (C72_not_finite, C72_refuted)."
  },
  {
   "property": "C73",
   "status": "proved",
   "theorems": [
    "C73_each",
    "C73_registered"
   ],
   "note": ""
  },
  {
   "property": "C74",
   "status": "proved",
   "theorems": [
    "C74_absolute",
    "C74_relative"
   ],
   "note": ""
  },
  {
   "property": "C75",
   "status": "partial",
   "theorems": [
    "C75_refuted",
    "C75_overwrites",
    "C75_output"
   ],
   "note": "False of the code: run on x.pdf in the working directory, the command overwrites it. Proved instead: this happens exactly for inputs named *.pdf that lie in the working directory, however their path is written."
  },
  {
   "property": "C76",
   "status": "proved",
   "theorems": [
    "C76_selectors"
   ],
   "note": ""
  },
  {
   "property": "C77",
   "status": "proved",
   "theorems": [
    "C77_no_panic"
   ],
   "note": ""
  },
  {
   "property": "C78",
   "status": "proved",
   "theorems": [
    "C78_returns"
   ],
   "note": ""
  },
  {
   "property": "C79",
   "status": "proved",
   "theorems": [
    "C79_clean"
   ],
   "note": ""
  },
  {
   "property": "C80",
   "status": "proved",
   "theorems": [
    "C80_definitions",
    "C80_fails"
   ],
   "note": ""
  },
  {
   "property": "C81",
   "status": "proved",
   "theorems": [
    "C81_engine"
   ],
   "note": ""
  },
  {
   "property": "C82",
   "status": "proved",
   "theorems": [
    "C82_letters",
    "C82_always"
   ],
   "note": ""
  },
  {
   "property": "C83",
   "status": "proved",
   "theorems": [
    "C83_others",
    "C83_arguments",
    "C83_success",
    "C83_code"
   ],
   "note": ""
  },
  {
   "property": "C84",
   "status": "partial",
   "theorems": [
    "C84_refuted",
    "C84_untouched_partial",
    "C84_failed"
   ],
   "note": "False of the code: the output file is created before the fonts are loaded, so a run that fails later leaves it empty. Proved instead: it is unchanged if the input cannot be loaded or the output not created, and what it holds after any failure."
  },
  {
   "property": "C85",
   "status": "proved",
   "theorems": [
    "C85_cell"
   ],
   "note": ""
  },
  {
   "property": "C86",
   "status": "partial",
   "theorems": [
    "C86_block_refuted",
    "C86_aligned_partial",
    "C86_float_refuted",
    "C86_float_partial"
   ],
   "note": "False of the code for block text: its height is measured without hyphenation, refuted by a table whose first cell is written above the page. False in float64 also for other texts: the inner width of the cell is rounded differently for measuring and for writing, so that a text measured as one line is written as two (C86_float_refuted). Proved for all texts that are not block text, in exact arithmetic, and in float64 up to rounding if both widths are the same float (C86_float_partial)."
  },
  {
   "property": "C87",
   "status": "proved",
   "theorems": [
    "C87_styles"
   ],
   "note": ""
  },
  {
   "property": "C88",
   "status": "proved",
   "theorems": [
    "C88_shape"
   ],
   "note": ""
  },
  {
   "property": "C89",
   "status": "proved",
   "theorems": [
    "C89_document"
   ],
   "note": ""
  },
  {
   "property": "C90",
   "status": "proved",
   "theorems": [
    "C90_header_footer"
   ],
   "note": ""
  },
  {
   "property": "C91",
   "status": "proved",
   "theorems": [
    "C91_laws",
    "C91_moves",
    "C91_documents"
   ],
   "note": ""
  },
  {
   "property": "C92",
   "status": "proved",
   "theorems": [
    "C92_area_float",
    "C92_feed",
    "C92_area",
    "C92_text"
   ],
   "note": ""
  },
  {
   "property": "C93",
   "status": "proved",
   "theorems": [
    "C93_height",
    "C93_width",
    "C93_right_edge",
    "C93_float"
   ],
   "note": ""
  },
  {
   "property": "C94",
   "status": "proved",
   "theorems": [
    "C94_commands",
    "C94_box",
    "C94_image",
    "C94_font",
    "C94_text_color"
   ],
   "note": ""
  },
  {
   "property": "C95",
   "status": "proved",
   "theorems": [
    "C95_same_calls"
   ],
   "note": ""
  },
  {
   "property": "C96",
   "status": "proved",
   "theorems": [
    "C96_dump",
    "C96_items",
    "C96_texts",
    "C96_command"
   ],
   "note": ""
  },
  {
   "property": "C97",
   "status": "proved",
   "theorems": [
    "C97_letters",
    "C97_hyphens"
   ],
   "note": ""
  },
  {
   "property": "C98",
   "status": "proved",
   "theorems": [
    "C98_text",
    "C98_box",
    "C98_cell",
    "C98_pdf",
    "C98_hyphenator"
   ],
   "note": ""
  },
  {
   "property": "C99",
   "status": "partial",
   "theorems": [
    "C99_refuted",
    "C99_aligned_partial"
   ],
   "note": "False of the code: the width of a line counts a blank in front of its first word that is not printed, so right-aligned lines end one blank left of the edge and centred lines have one blank more space on the right (C99_refuted). Proved: left-aligned lines, and the exact deviation of the others."
  },
  {
   "property": "C100",
   "status": "partial",
   "theorems": [
    "C100_refuted",
    "C100_feeds_partial",
    "C100_below_partial"
   ],
   "note": "False of the code: the line feed after a line is taken from the font of its last word, so a line with a larger word before a smaller one is overprinted (C100_refuted: 40 points, next line 18 points below). Proved: the exact distance (C100_feeds_partial), and that lines of one font height do not overlap (C100_below_partial)."
  },
  {
   "property": "C101",
   "status": "partial",
   "theorems": [
    "C101_refuted",
    "C101_dump_partial",
    "C101_items_partial",
    "C101_texts"
   ],
   "note": "False of the code: if any number shown is NaN or infinite (a margin, setx, sety or linefeed of \"NaN\"), encoding/json fails, the error is dropped and the result is empty (C101_refuted). Proved: with finite numbers the JSON is read back completely, otherwise nothing is dumped (C101_dump_partial, C101_items_partial)."
  },
  {
   "property": "C102",
   "status": "partial",
   "theorems": [
    "C102_refuted",
    "C102_document_partial",
    "C102_header_footer_partial"
   ],
   "note": "False of the code: writeText and writeTextHyphenated set the text colour once, to that of the enclosing text, so the text colour of a paragraph inside a text, box or cell is ignored (C102_refuted: a red paragraph is printed black). Proved: every word is printed in the font of its element and in the colour of the text, box or cell it is in, in the body (C102_document_partial) and in headers and footers (C102_header_footer_partial)."
  },
  {
   "property": "C103",
   "status": "partial",
   "theorems": [
    "C103_refuted",
    "C103_document_partial",
    "C103_header_footer_partial",
    "C103_header_footer",
    "C103_pdf"
   ],
   "note": "False of the code: {cp} is replaced when a text is broken into lines, before the engine may begin a new page for a line (C103_refuted: '1' printed on page 2). Proved: all words of a text show the number of the page on which its first word was asked for, in the body (C103_document_partial) and in headers and footers (C103_header_footer_partial); a header or footer that begins no page itself shows the number of its own page (C103_header_footer); the PDF engine obeys the page law if gofpdf does (C103_pdf)."
  },
  {
   "property": "C104",
   "status": "proved",
   "theorems": [
    "C104_spans"
   ],
   "note": ""
  },
  {
   "property": "C105",
   "status": "proved",
   "theorems": [
    "C105_dims",
    "C105_area"
   ],
   "note": ""
  },
  {
   "property": "C106",
   "status": "partial",
   "theorems": [
    "C106_float_refuted",
    "C106_box",
    "C106_cell",
    "C106_row",
    "C106_pdf"
   ],
   "note": "False of the code in float64: the inner width of a cell is rounded differently when the height of its row is computed and when its text is written, so that a text given the height of one line is written as two, the second below the frame (C106_float_refuted). Proved in exact arithmetic."
  },
  {
   "property": "C107",
   "status": "proved",
   "theorems": [
    "C107_image",
    "C107_argument"
   ],
   "note": ""
  },
  {
   "property": "C108",
   "status": "proved",
   "theorems": [
    "C108_document",
    "C108_header_footer"
   ],
   "note": ""
  },
  {
   "property": "C109",
   "status": "partial",
   "theorems": [
    "C109_refuted",
    "C109_same_partial"
   ],
   "note": "False of the code: writing a text leaves its font in the Processor (C56), and headers and footers start from it (C109_refuted: a text in 30 point makes the next page's header large). Proved: texts and boxes that set the font themselves, not justified, are printed alike on all pages (C109_same_partial). Not said of tables in headers."
  },
  {
   "property": "C110",
   "status": "proved",
   "theorems": [
    "C110_longer",
    "C110_drawn",
    "C110_common_start"
   ],
   "note": ""
  },
  {
   "property": "C111",
   "status": "proved",
   "theorems": [
    "C111_within",
    "C111_families",
    "C111_registered",
    "C111_default"
   ],
   "note": ""
  },
  {
   "property": "C112",
   "status": "partial",
   "theorems": [
    "C112_refuted",
    "C112_command_partial",
    "C112_load",
    "C112_same",
    "C112_sheet"
   ],
   "note": "False of the code: DecodeClasses prints a line to standard output for every selector it reads (style/class.go:97), so the output of cmd/describe is not XML for documents with selectors (C112_refuted). Proved: exactly these lines are printed, in the order of the rules, and then the XML; without selectors nothing but the XML (C112_command_partial, C112_load, C112_sheet)."
  },
  {
   "property": "C113",
   "status": "proved",
   "theorems": [
    "C113_printed",
    "C113_same"
   ],
   "note": ""
  },
  {
   "property": "C114",
   "status": "proved",
   "theorems": [
    "C114_thinned"
   ],
   "note": ""
  },
  {
   "property": "C115",
   "status": "proved",
   "theorems": [
    "C115_append"
   ],
   "note": ""
  },
  {
   "property": "C116",
   "status": "proved",
   "theorems": [
    "C116_allowed",
    "C116_box",
    "C116_table"
   ],
   "note": ""
  }
 ]
}