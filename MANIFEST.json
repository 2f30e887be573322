{
 "claims": [
  {
   "property": "C01",
   "status": "proved",
   "theorems": [
    "C01_xref_offsets"
   ],
   "note": "for files below 10^10 bytes, the limit of the 10-digit field"
  },
  {
   "property": "C02",
   "status": "proved",
   "theorems": [
    "C02_startxref"
   ],
   "note": ""
  },
  {
   "property": "C03",
   "status": "proved",
   "theorems": [
    "C03_xref_shape"
   ],
   "note": ""
  },
  {
   "property": "C04",
   "status": "proved",
   "theorems": [
    "C04_add",
    "C04_stable",
    "C04_zero_is_no_object"
   ],
   "note": ""
  },
  {
   "property": "C05",
   "status": "proved",
   "theorems": [
    "C05_roundtrip",
    "C05_file_roundtrip"
   ],
   "note": ""
  },
  {
   "property": "C06",
   "status": "partial",
   "theorems": [
    "C06_text_survives_partial",
    "C06_text_survives_refuted"
   ],
   "note": "false of the code for text with a backslash (finding); proved for latin-1 text without backslash and CR"
  },
  {
   "property": "C07",
   "status": "proved",
   "theorems": [
    "C07_stream"
   ],
   "note": ""
  },
  {
   "property": "C08",
   "status": "proved",
   "theorems": [
    "C08_output_twice",
    "C08_object_twice"
   ],
   "note": ""
  },
  {
   "property": "C09",
   "status": "partial",
   "theorems": [
    "C09_failed_write_partial",
    "C09_failed_write_refuted"
   ],
   "note": "false of the code for streams (finding); proved for objects without streams"
  },
  {
   "property": "C10",
   "status": "proved",
   "theorems": [
    "C10_page_tree"
   ],
   "note": ""
  },
  {
   "property": "C11",
   "status": "proved",
   "theorems": [
    "C11_name_tree",
    "C11_document_labels"
   ],
   "note": ""
  },
  {
   "property": "C12",
   "status": "proved",
   "theorems": [
    "C12_outline_objects",
    "C12_document_outlines"
   ],
   "note": "the Count of inner closed items is C58"
  },
  {
   "property": "C13",
   "status": "proved",
   "theorems": [
    "C13_outline_insertion",
    "C13_outline_sequences",
    "C12_document_outlines"
   ],
   "note": "nothing is stored in the outlines when the addition raises; the text itself stays on the page (finding)"
  },
  {
   "property": "C14",
   "status": "proved",
   "theorems": [
    "C14_roman",
    "C14_roman_outside",
    "C14_roman_injective"
   ],
   "note": ""
  },
  {
   "property": "C15",
   "status": "proved",
   "theorems": [
    "C15_range_membership",
    "C15_malformed_raises"
   ],
   "note": ""
  },
  {
   "property": "C16",
   "status": "partial",
   "theorems": [
    "C16_positions_partial",
    "C16_one_dimension_partial",
    "C16_positions_refuted"
   ],
   "note": "false of the code for negative steps and for starts before the beginning with a step above 1 (finding); proved for comma lists, all step-1 slices and larger steps with a start in range"
  },
  {
   "property": "C17",
   "status": "partial",
   "theorems": [
    "C17_margin_partial",
    "C17_margin_refuted"
   ],
   "note": "false of the code for a text of one number and a tuple of three (finding); proved for every other kind of value"
  },
  {
   "property": "C18",
   "status": "proved",
   "theorems": [
    "C18_add_page",
    "C18_named_sizes"
   ],
   "note": "lengths are exact rationals"
  },
  {
   "property": "C19",
   "status": "proved",
   "theorems": [
    "C19_jpeg"
   ],
   "note": ""
  },
  {
   "property": "C20",
   "status": "proved",
   "theorems": [
    "C20_images"
   ],
   "note": ""
  },
  {
   "property": "C21",
   "status": "partial",
   "theorems": [
    "C21_fonts_partial",
    "C21_fonts_refuted"
   ],
   "note": "missing: documents with fonts added by PDF.add_font to a family and mode already used, where it is false of the code (finding), and processes in which an earlier document loaded registered fonts (C29)"
  },
  {
   "property": "C22",
   "status": "proved",
   "theorems": [
    "C22_links",
    "C11_document_labels"
   ],
   "note": ""
  },
  {
   "property": "C23",
   "status": "proved",
   "theorems": [
    "C23_graphics",
    "C23_graphics_written"
   ],
   "note": ""
  },
  {
   "property": "C24",
   "status": "proved",
   "theorems": [
    "C24_text_state"
   ],
   "note": "a part without a colour (text_color None or '') keeps the colour of the text before it"
  },
  {
   "property": "C25",
   "status": "proved",
   "theorems": [
    "C25_literal_text"
   ],
   "note": ""
  },
  {
   "property": "C26",
   "status": "partial",
   "theorems": [
    "C26_embedded_text_partial",
    "C26_embedded_text_refuted",
    "C26_part_partial",
    "C26_mode_refuted"
   ],
   "note": "missing: text with parentheses or backslashes, glyph ids with a byte 13 or in the surrogate range, styles with b or i present but false; the full statement is false of the code in each of these cases (findings)"
  },
  {
   "property": "C27",
   "status": "partial",
   "theorems": [
    "C27_widths_partial",
    "C27_widths_refuted"
   ],
   "note": "missing: character maps in which neighbouring characters share a glyph; false of the code there (finding)"
  },
  {
   "property": "C28",
   "status": "partial",
   "theorems": [
    "C28_tounicode_partial",
    "C28_tounicode_refuted"
   ],
   "note": "missing: characters outside the basic plane, for which it is false of the code (finding)"
  },
  {
   "property": "C29",
   "status": "partial",
   "theorems": [
    "C29_registered_fonts_partial",
    "C29_registered_fonts_refuted"
   ],
   "note": "missing: fonts an earlier document of the process already used; false of the code there (finding)"
  },
  {
   "property": "C30",
   "status": "proved",
   "theorems": [
    "C30_standard_fonts",
    "C30_any_mode",
    "C30_by_name"
   ],
   "note": ""
  },
  {
   "property": "C31",
   "status": "proved",
   "theorems": [
    "C31_words",
    "C31_finished",
    "C31_shown",
    "C31_runs",
    "C31_tokens"
   ],
   "note": "a list paragraph that begins with a line break raises (finding)"
  },
  {
   "property": "C32",
   "status": "proved",
   "theorems": [
    "C32_height",
    "C32_greedy"
   ],
   "note": ""
  },
  {
   "property": "C33",
   "status": "proved",
   "theorems": [
    "C33_width"
   ],
   "note": "that lines break only at spaces is C31_words: lines hold whole chunks"
  },
  {
   "property": "C34",
   "status": "partial",
   "theorems": [
    "C34_list_width_partial",
    "C34_break_refuted",
    "C34_continuation_refuted"
   ],
   "note": "missing: lines after a line break and the first line of a continuation, for which it is false of the code (finding)"
  },
  {
   "property": "C35",
   "status": "proved",
   "theorems": [
    "C35_terminates",
    "C35_progress",
    "C35_tall_refuted"
   ],
   "note": "C35_tall_refuted shows that the hypothesis is needed: a line taller than the page never finishes (finding)"
  },
  {
   "property": "C36",
   "status": "partial",
   "theorems": [
    "C36_replay_partial",
    "C36_list_partial",
    "C36_first_line_refuted",
    "C36_finished_refuted"
   ],
   "note": "missing: histories that change the first-line flag, list paragraphs before their first line is written, and the finished flag, for which it is false of the code (findings)"
  },
  {
   "property": "C37",
   "status": "partial",
   "theorems": [
    "C37_justified_partial",
    "C37_list_partial",
    "C37_penultimate_refuted",
    "C37_squeeze_refuted"
   ],
   "note": "missing: lines before a single remaining word are not filled, and lines that end in doubled spaces are squeezed further; both false of the code (findings)"
  },
  {
   "property": "C38",
   "status": "partial",
   "theorems": [
    "C38_left_edge_partial",
    "C38_list_partial",
    "C38_indent_refuted",
    "C38_list_right_refuted"
   ],
   "note": "missing: right and centre alignment with an indent or a list text, and continuations after one line with an indent, for which it is false of the code (findings). The moves from line to line are rounded: positions are right up to n times the error of one rounding in a run with n lines"
  },
  {
   "property": "C39",
   "status": "proved",
   "theorems": [
    "C39_rich_text"
   ],
   "note": ""
  },
  {
   "property": "C40",
   "status": "partial",
   "theorems": [
    "C40_style_strings_partial",
    "C40_style_strings_refuted"
   ],
   "note": "missing: flags with a value, white space before s and r, ValueError for colours, for which it is false of the code (findings)"
  },
  {
   "property": "C41",
   "status": "partial",
   "theorems": [
    "C41_documented",
    "C41_names",
    "C41_written",
    "C41_invalid_partial",
    "C41_invalid_refuted"
   ],
   "note": "missing: that everything else raises, false of the code: another number of components gives no colour, hexadecimal colours with a sign are accepted, RGBA colours raise when written (findings)"
  },
  {
   "property": "C42",
   "status": "partial",
   "theorems": [
    "C42_restore_partial",
    "C42_restore_refuted"
   ],
   "note": "The row index is restored. The pending cells are not (set_state has elif where if is meant): refuted with a concrete history in which the second half of a cell is shown again from the start."
  },
  {
   "property": "C43",
   "status": "partial",
   "theorems": [
    "C43_partial",
    "C43_cancel_refuted"
   ],
   "note": "Over any sequence of rectangles: per column, an unfinished cell is always the next one processed and resumes from its saved state; when no run is cancelled, cells are begun in order and at most once, and when the table is finished every place was begun or lies in the span of a processed cell. A cancelled first row (only row-spanning cells show something) drops what they drew: refuted."
  },
  {
   "property": "C44",
   "status": "proved",
   "theorems": [
    "C44_columns",
    "C44_cells"
   ],
   "note": ""
  },
  {
   "property": "C45",
   "status": "proved",
   "theorems": [
    "C45_rows"
   ],
   "note": "Rows are also no higher than a cell that ends in them needs. Also for cells over several rows, when the rows they cover are added in the same run."
  },
  {
   "property": "C46",
   "status": "partial",
   "theorems": [
    "C46_cells",
    "C46_page_break_refuted"
   ],
   "note": "Inside a run, for every tiling by spans, exactly the uncovered cells are processed. Refuted across page breaks: the rows left of a finished cell are forgotten. The lines drawn: C61."
  },
  {
   "property": "C47",
   "status": "partial",
   "theorems": [
    "C47_order_partial",
    "C47_columns_partial",
    "C49_kept_partial",
    "C47_flow_refuted"
   ],
   "note": "Proved for boxes of any numbers of columns inside one another over any pages, with images that keep their place and any elements that can be set back to each state they have saved (C47_columns_partial; the paragraphs and tables of the code cannot: C75_columns_refuted); with works of elements that need only go on from the last state for one-column boxes of any nesting with paragraphs, tables and images that keep their place, and for boxes without boxes inside with images of any placement (texts in order, C49_kept_partial); refuted with flowing images and a last nested box, whose text is shown again from the beginning. Objects are any with restore (save o) = o. Groups: see C50."
  },
  {
   "property": "C48",
   "status": "partial",
   "theorems": [
    "C48_columns_fill",
    "C48_columns_partial",
    "C48_rectangle",
    "C48_bottom_partial",
    "C48_bottom_refuted"
   ],
   "note": "Columns of boxes of any nesting: parts are in their column between the margins and below the top. Above the bottom: when every box has one column (any objects), and when the boxes of several columns have no boxes inside and stand in boxes of one column, for objects that go on from what was saved (C48_bottom_partial: the search for the height of the columns never ends below). Refuted with a waiting image and a box inside a box of several columns: after other bottoms were tried the box ends below the bottom (C48_bottom_refuted, a finding). Missing: above the bottom for boxes inside boxes of several columns without such images. Objects are assumed to keep to the height they get."
  },
  {
   "property": "C49",
   "status": "partial",
   "theorems": [
    "C49_try",
    "C49_kept_partial",
    "C48_columns_partial",
    "C49_cells",
    "C49_cells_refuted"
   ],
   "note": "A box: an image is placed in proportion in the room that is left, or delayed with the try counted, or it was the 51st try; none dropped or doubled in boxes without boxes inside. Proportions in all boxes: C48_columns_partial (inside). Cells: in proportion, below the room, or kept; nothing counts the tries in a table, so a too high image never raises (refuted)."
  },
  {
   "property": "C50",
   "status": "partial",
   "theorems": [
    "C50_none",
    "C50_all_partial",
    "C50_all_refuted",
    "C50_images_refuted"
   ],
   "note": "A group that is delayed is delayed whole and draws nothing, always. When it is not delayed, all of it is drawn if the second pass does not start lower than the first (the group is not the first of its rectangle or the margins agree) and images can either all shrink or all keep their size; refuted otherwise: the last element is cut or lost (findings)."
  },
  {
   "property": "C51",
   "status": "partial",
   "theorems": [
    "C51_get_shares_nothing",
    "C51_set_restores",
    "C51_replay_partial",
    "C51_partial_memory_refuted"
   ],
   "note": "The state that is got has what the box has and shares no list or dict with it; setting it gives that back. Going back to a state of a box of one column (with boxes of any columns inside) and running again draws the same, for objects whose set_state restores them; the number of tries of images is not restored. Refuted for boxes of several columns: the place kept for a nested box while an image waits is not in the state. Paragraph and table objects are shared: see C36 and C42."
  },
  {
   "property": "C52",
   "status": "partial",
   "theorems": [
    "C52_names",
    "C52_page_partial",
    "C52_text_partial",
    "C52_refuted"
   ],
   "note": "Names: every document tree. Numbers: sections of paragraphs in one column, all pages, for paragraphs whose layout does not change with the numbers shown (marks of one digit) and that show a beginning of their marks in less height; any other page when the second pass shows the first marks of the first one. Refuted otherwise: a group that only fits without the footnotes leaves the marks after it with numbers that are not those of the list."
  },
  {
   "property": "C53",
   "status": "partial",
   "theorems": [
    "C53_pages_partial",
    "C53_rectangle",
    "C53_style_refuted",
    "C53_section_style_refuted",
    "C53_none_refuted"
   ],
   "note": "The running sections of every page are those of the section changed by the rules that apply, in order, in the documented rectangles; the page style is the section's changed by the rules when no earlier page or section set the same key. Refuted: the style of a rule (and of a section) stays for the pages that follow; a position given as None is not the documented default. Drawing, filling and iterating contents are parameters."
  },
  {
   "property": "C54",
   "status": "proved",
   "theorems": [
    "C54_page_number",
    "C54_reset",
    "C54_document"
   ],
   "note": ""
  },
  {
   "property": "C55",
   "status": "proved",
   "theorems": [
    "C55_y_roundtrip",
    "C55_moves",
    "C55_position",
    "C18_add_page"
   ],
   "note": "lengths are exact rationals"
  },
  {
   "property": "C56",
   "status": "partial",
   "theorems": [
    "C56_refuted",
    "C56_unmarked_partial",
    "C56_marks_again_partial",
    "C56_reuse_refuted",
    "C56_styles_again",
    "C56_boxes_again_partial",
    "C56_tries_refuted"
   ],
   "note": "Refuted: the marks get ids, styles and variables in the caller's dicts, and images and groups keep their tries, so the 51st build of a document raises. Building the same document again has the same footnotes, names, styles and, when nothing is raised, the same pages; a section reused in another document may raise."
  },
  {
   "property": "C57",
   "status": "partial",
   "theorems": [
    "C57_fill_bytes_refuted"
   ],
   "note": "false of the code (finding)"
  },
  {
   "property": "C58",
   "status": "partial",
   "theorems": [
    "C58_closed_count_partial",
    "C58_closed_count_refuted"
   ],
   "note": "false of the code for a closed item with two or more children (finding)"
  },
  {
   "property": "C59",
   "status": "proved",
   "theorems": [
    "C59_marks_at_text",
    "C59_stream",
    "C59_list"
   ],
   "note": ""
  },
  {
   "property": "C60",
   "status": "partial",
   "theorems": [
    "C60_lines_apart_partial",
    "C60_list_partial",
    "C60_lines_apart_refuted",
    "C60_list_refuted"
   ],
   "note": "Proved for line_height of at least 1, when no text lowered by more than the line height is followed by a line break. Refuted otherwise: the room under a lowered text is forgotten at a line break, and the next line is drawn over it; and a list text higher than the first line is not counted in the height, so the last lines go below the rectangle. Missing: list texts that are raised or lowered. All up to the rounding of printed numbers: n + 2 times the error of one rounding in a run with n lines."
  },
  {
   "property": "C61",
   "status": "partial",
   "theorems": [
    "C61_lines_partial",
    "C61_stale_refuted",
    "C61_continued_refuted"
   ],
   "note": "Every run that is not cancelled, every tiling by spans: the lines go along edges of cells with a border of that look, each edge at most once, at the levels of the rows and the columns; and all such edges have a line when no cell of a single column takes three rows or more beside cells of several columns. Refuted otherwise (the top border of a cell over several columns, after a cell of one column and three rows, is cut), and for the continuation of a row in another page, where lines are drawn inside a finished cell over several columns."
  },
  {
   "property": "C62",
   "status": "partial",
   "theorems": [
    "C62_fills_partial",
    "C62_fills_refuted"
   ],
   "note": "Every run that is not cancelled, every tiling by spans: the fills are those of distinct shown cells with a colour, in their own rows and columns, and all of those are filled but, when the table ends, the cells with more rows than the table has left. Refuted for these: a coloured cell whose rowspan goes past the end of the table is never filled (finding)."
  },
  {
   "property": "C63",
   "status": "partial",
   "theorems": [
    "C63_definitions_partial"
   ],
   "note": "Every list of definitions whose ranges are comma lists, slices of step 1 or slices with larger steps and a start in range (what C16 has for one range) and whose colours parse_color accepts; the other ranges are findings of C16."
  },
  {
   "property": "C64",
   "status": "proved",
   "theorems": [
    "C64_text"
   ],
   "note": "The lines stay between the left and right margins by C33, above the bottom margin by the theorem; running sections do what they want to the cursor. Lines taller than a page never end: C35_tall_refuted."
  },
  {
   "property": "C65",
   "status": "partial",
   "theorems": [
    "C65_boxes_partial",
    "C65_cursor_refuted"
   ],
   "note": "The pages and rectangles, and that the cursor is not above the bottom of the element. Refuted: the cursor is right under the element: every paragraph and image in it moves the cursor once more, so it is always left lower when something is shown (finding)."
  },
  {
   "property": "C66",
   "status": "partial",
   "theorems": [
    "C66_styles_partial",
    "C66_shared_refuted",
    "C66_inner_table_refuted",
    "C66_text_refuted"
   ],
   "note": "All trees of elements; the keys shrink and min_height, which groups set, and the margin of 5 of boxes are not in it. Refuted: a dict used at two places has at the second the style it got at the first; the margins and fill of the cells of a table in a cell do not come from the style of that table; PDF.text does not use the line height and indent of the document (findings)."
  },
  {
   "property": "C67",
   "status": "partial",
   "theorems": [
    "C67_image_partial",
    "C67_top_refuted"
   ],
   "note": "All images that are not empty and all arguments. Refuted: y, and the cursor, are the bottom of the image and not its top as documented, so the image is drawn above the cursor and the cursor goes to one height below it (finding). Coordinates are rounded by any function here; an image without points raises ZeroDivisionError."
  },
  {
   "property": "C68",
   "status": "partial",
   "theorems": [
    "C68_files",
    "C68_path_partial",
    "C68_stream_partial",
    "C68_rewound",
    "C68_same_path_partial",
    "C68_position_refuted",
    "C68_same_path_refuted"
   ],
   "note": "All inputs, files and behaviours of Pillow. Refuted: a stream is parsed from its position but embedded from its beginning, so one that was just written is refused and bytes before the image are embedded; a file named '.jpg' opens as text and not as a Path (findings). After a PNG, or an exception, the position of the stream is arbitrary."
  },
  {
   "property": "C69",
   "status": "partial",
   "theorems": [
    "C69_apart_partial",
    "C69_refuted"
   ],
   "note": "Refuted with an image that waits for its place in boxes of several columns inside each other (finding). Proved: boxes of any nesting and columns, but no box of several columns inside another one; gaps and margins are not negative, every column is wide enough for its margins, and objects keep to the height they get. Groups are among the elements."
  },
  {
   "property": "C70",
   "status": "partial",
   "theorems": [
    "C70_header_partial",
    "C70_header_refuted"
   ],
   "note": "Refuted: the comment line under the header has no byte from 128 on in any file, whatever its streams hold (finding). Proved: the header with the version alone on the first line, and a comment as the second line."
  },
  {
   "property": "C71",
   "status": "proved",
   "theorems": [
    "C71_filters",
    "C07_stream"
   ],
   "note": ""
  },
  {
   "property": "C72",
   "status": "partial",
   "theorems": [
    "C72_spaces_partial",
    "C72_spaces_refuted"
   ],
   "note": "Refuted: white space at the end of one part and at the beginning of the next one gives two spaces after the second word of a line (is_last_word_space is never set again), and a space before a line break or the end of the text stays at the end of the line (findings). Proved: no line begins with a space; without white space on both sides of a border no line has two spaces in a row, and none that ends because a word does not fit ends with one."
  },
  {
   "property": "C73",
   "status": "partial",
   "theorems": [
    "C73_height_partial",
    "C73_height_refuted"
   ],
   "note": "Refuted with an image that waits for its place in boxes of several columns inside each other (finding, same cause as C69_refuted). Proved: boxes of any nesting and columns, but no box of several columns inside another one; exact when no box has several columns. Margins and gaps are not negative, every column is wide enough for its margins, and objects keep to the height they get."
  },
  {
   "property": "C74",
   "status": "partial",
   "theorems": [
    "C45_rows",
    "C74_height_partial",
    "C74_height_refuted"
   ],
   "note": "Refuted: a row where nothing fits any more, or with nothing in it, is four points high even when less is left, so the table is higher than its room (finding). Proved: each row is exactly as high as a cell that ends in it needs (C45_rows); a row ends within the room or is at most four points high; a table whose cells all take some height stays within its room."
  },
  {
   "property": "C75",
   "status": "partial",
   "theorems": [
    "C75_order_partial",
    "C75_words_partial",
    "C75_alone_partial",
    "C75_columns_order_partial",
    "C75_columns_words_partial",
    "C75_columns_refuted",
    "C75_list_mark_refuted",
    "C75_table_columns_refuted"
   ],
   "note": "Proved with the models of text.py, table.py and content.py put together, for any depth of tables and boxes: each word is shown once or is left, and nothing is left when it is finished. The table cells cover one row (any number of columns), in the theorems without _columns_ the boxes have one column; there are no groups, images keep their place and are only in the outermost box (in cells anywhere); margins and borders are not negative and the line height is positive. Missing: cells over several rows (false: C46_page_break_refuted), images that flow (false: C47_flow_refuted). Boxes of several columns, none inside another, have it as long as no page but the first begins inside columns (C75_columns_order_partial, C75_columns_words_partial); it is refuted for pages that begin inside columns, where paragraphs with lines of different heights, marks of lists and cells of tables are lost."
  },
  {
   "property": "C76",
   "status": "partial",
   "theorems": [
    "C76_alone_partial",
    "C76_set_once",
    "C76_well_formed",
    "C76_list_text_refuted",
    "C76_colour_refuted"
   ],
   "note": "Well-formedness is proved for all pages. Refuted: a list text with a space inside is shown with the word spacing left by a justified paragraph before it, and text whose colour is None or '' with the colour of the text before it (findings). Proved for all other paragraphs, all graphics and images; list texts may end in spaces. Numbers stand for themselves: how they are printed is in C04."
  },
  {
   "property": "C77",
   "status": "partial",
   "theorems": [
    "C77_list_text_partial",
    "C77_parentheses_refuted",
    "C77_mode_refuted"
   ],
   "note": "Refuted: list text is not escaped in a standard font, and in an embedded font it is written with the glyph numbers of the mode that list_style has keys for while the font selected follows the values in the style of the first part and list_style (findings). Proved without these: matching parentheses and no backslash or CR in a standard font; agreeing modes and writable glyph numbers in an embedded one; any document whose fonts come from requests."
  },
  {
   "property": "C78",
   "status": "partial",
   "theorems": [
    "C78_reads_partial",
    "C78_painted_partial",
    "C78_page_partial",
    "C78_one_reading",
    "C78_numbers",
    "C78_exponent_refuted"
   ],
   "note": "Refuted: the indent after a list text is not rounded, so a small one is printed with an exponent, and so are numbers from 10^16 (findings). Proved: all operators of pages whose paragraphs have no list text, when no number is that large and no line goes up; with list texts for those of C77 and indents from 1/10000. [GShow] carries the codes of the text (C25, C26); how floats are printed follows the repr of CPython for given shortest digits."
  },
  {
   "property": "C79",
   "status": "partial",
   "theorems": [
    "C79_formats",
    "C79_sections",
    "C79_running",
    "C79_notes_partial",
    "C79_notes_refuted"
   ],
   "note": "Sections, running sections and formats in full; notes whose style is not a name. Refuted for notes whose style is a name: the name is updated as a dict, which raises (finding)."
  },
  {
   "property": "C80",
   "status": "partial",
   "theorems": [
    "C80_descriptor_partial",
    "C80_licence",
    "C80_no_os2_refuted",
    "C80_name_refuted",
    "C80_few_names_refuted"
   ],
   "note": "Proved for fonts with an OS/2 table whose seventh name is the PostScript name. Refuted otherwise: without OS/2 table an attribute that is never set is read, and the seventh record of the name table is taken for the PostScript name, whatever it is (findings)."
  },
  {
   "property": "C81",
   "status": "partial",
   "theorems": [
    "C81_apart_partial",
    "C81_notes_partial",
    "C81_cut_refuted",
    "C81_group_refuted"
   ],
   "note": "Refuted: a footnote that does not fit on an empty page but leaves 30 or more of it free loses its beginning, and with groups or flowing images the second pass can show other marks than those whose footnotes were measured, so that footnotes end below the margin (findings). Proved: the section is apart from the footnotes for the contents of C48_bottom_partial; for paragraphs in one column with paragraphs or tables as footnotes, whose lines and margins are not higher than 30, the footnotes are complete and above the margin."
  },
  {
   "property": "C82",
   "status": "partial",
   "theorems": [
    "C82_values_partial",
    "C82_lookup",
    "C82_page_numbers",
    "C82_words_refuted",
    "C82_break_refuted"
   ],
   "note": "Proved for variables whose values are single words (as page numbers and the numbers of footnotes are) or do not change. Refuted otherwise: a value of several words that changes while it is broken over two pages is shown as the beginning of one value and the end of the other, and a line feed in a value is not a line break as in text (findings)."
  },
  {
   "property": "C83",
   "status": "partial",
   "theorems": [
    "C83_content_partial",
    "C83_alone_partial",
    "C48_bottom_refuted"
   ],
   "note": "Proved for margins, gaps and border widths that are not negative and styles that leave a width: the sides and the top for boxes with any columns, the bottom for boxes of one column (with several it is refuted, C48_bottom_refuted). Boxes in cells of tables have no images; images in groups have no min_height if there are tables. The fills and lines of a table can be 4 below (C74)."
  },
  {
   "property": "C84",
   "status": "partial",
   "theorems": [
    "C84_shown_partial",
    "C84_content_partial",
    "C84_alone_partial",
    "C84_image_refuted"
   ],
   "note": "Proved for boxes of one column with paragraphs, tables and boxes that are not empty, and tables without cells over several rows, with paragraphs, images, boxes and tables in their cells. Not covered: images and groups in boxes, boxes of several columns, cells over several rows. Without the condition that images fit it is refuted: a table with an image that is higher than the page never ends (C84_image_refuted); for lines it is C35_tall_refuted."
  },
  {
   "property": "C85",
   "status": "partial",
   "theorems": [
    "C85_file_partial",
    "C85_fonts_partial"
   ],
   "note": "Proved from the bytes of the file: pages, sizes, contents, images, links, labels, outlines, and in a process without added fonts the fonts, standard and embedded. Missing: texts of labels, titles and addresses that cannot be written (backslash, carriage return, beyond latin-1: refuted by C06_text_survives_refuted), image objects with keys of tree nodes, files of 10^10 bytes or more (their table cannot say the offsets), fonts added for a family in use (refuted by C21_fonts_refuted). Compression and the text of numbers are parameters; the numbers must be writable."
  },
  {
   "property": "C86",
   "status": "partial",
   "theorems": [
    "C86_one_reading",
    "C86_texts_partial",
    "C86_words_partial",
    "C86_order_partial"
   ],
   "note": "Proved from the words of contents to the bytes of the file, for the contents of C75 (no groups, no cells over several rows), texts without list labels and without carriage returns (refuted by C06_text_survives_refuted), numbers below 10^16, no fonts added for a family in use, and the conditions of C85. That the pages of the document hold the pieces that the contents drew is a hypothesis here (put, holds_items) and proved for documents made by calls in C88."
  },
  {
   "property": "C87",
   "status": "partial",
   "theorems": [
    "C87_links_partial",
    "C87_labels_partial",
    "C87_words_partial"
   ],
   "note": "Proved from the ids of the parts of contents to the bytes of the file, for the contents of C75 (no groups, no cells over several rows), paragraphs without list labels, and the conditions of C85; that the pages hold what was drawn is a hypothesis here and proved in C88. When several paragraphs have the same label the last one counts (C85), here only that it is one of them. Outlines written as ids are modelled (Links.v) and covered by C85, not followed to the contents."
  },
  {
   "property": "C88",
   "status": "partial",
   "theorems": [
    "C88_pages_partial",
    "C88_breaks_partial",
    "C88_words_partial",
    "C88_links_partial",
    "C88_labels_partial",
    "C88_linked_words_partial"
   ],
   "note": "Proved for documents without running sections, calls with default arguments whose elements are those of C75 (no groups, no cells over several rows, boxes of one column), paragraphs without list labels, calls that end without an exception (C89 says when), and the conditions of C85 and C86. That the text handed to a page is the print of the operators is a hypothesis (well_printed; C78 proves it of the printer), and so are the object of an image and the style with which a font is used (C85)."
  },
  {
   "property": "C89",
   "status": "partial",
   "theorems": [
    "C89_ends_partial"
   ],
   "note": "Proved for documents without running sections, calls with default arguments, and the elements of C84: paragraphs, tables without cells over several rows, boxes of one column without images and groups, all of which fit in a page (without that it is refuted by C84_image_refuted and C35_tall_refuted)."
  },
  {
   "property": "C90",
   "status": "partial",
   "theorems": [
    "C90_margins_partial",
    "C90_tops_partial"
   ],
   "note": "Proved for documents without running sections, calls with default arguments, and the elements of C83: margins and gaps that are not negative and that leave the columns a width; the bottom margin only when boxes have one column. Lines and fills are not covered. That the cursor between calls is below the top margin is not claimed."
  },
  {
   "property": "C91",
   "status": "partial",
   "theorems": [
    "C91_apart_partial",
    "C91_area_partial",
    "C91_after_partial"
   ],
   "note": "Proved when the calls before are pages; texts whose line height is not negative; tables whose cells take one row and have margins and horizontal borders that are not negative, and hold texts, such tables, or boxes of texts and groups of texts in one column; and contents of texts and groups of texts in one column, with boxes inside one another, whose top and bottom margins are not negative. The call itself is any of C90. C91_after_partial: any calls at all may come first, and then the next call lies below what the calls of this kind after them have shown. Missing: that it lies below what contents with several columns, tables, images or groups with images have shown, and tables with images in their cells; running sections; lines and fills."
  }
 ]
}