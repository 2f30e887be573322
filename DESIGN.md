# Formal model of pdfme in Rocq (Coq 8.16.1)

## Method

Each python function is transcribed branch by branch into a total Gallina
function.  A python exception is a value (`Err e`), so "raises" and "returns"
are both observable.  Text is a list of code points (`list N`), bytes are a
list of `N`, geometry is exact rational arithmetic (`Q`).  Every definition of
the model carries a comment with the file and lines it transcribes and says
where it simplifies.  Properties are stated in files `P*.v` that contain only
specifications, theorem statements and one-line proofs, each followed by
`Print Assumptions` and by an `Example` showing the hypotheses are met by a
concrete non-trivial case.

Where the property, as a user understands it, is false of the code, the
strongest true part is proved as `..._partial` and the failure is proved as
`..._refuted : exists input, ...` (a finding, listed below).

## Trusted base

* Coq's kernel (8.16.1), including its `vm_compute` reduction.
* `Print Assumptions` of every theorem: see the section "Assumptions" below.
* The transcription of python into Gallina (checked by reading only: the code
  cannot be run here).
* Floats are exact rationals in the geometry model: rounding errors of binary
  floating point are not modelled.  `round(x, 3)` used when a number is printed
  into an operator is an arbitrary function that respects equality; the
  theorems on where lines are (C38, C60) take the largest error of one rounding
  as a parameter and bound how far the lines can be off.  In the serializer a float is carried with its
  printed text.
* Not modelled: zlib (an arbitrary function on bytes), Pillow and fontTools
  (arbitrary image/metric data), the file system, `uuid`, the python runtime's
  memory and recursion limits.

## Plan per property

| id | what is modelled | how it is proved |
|----|------------------|------------------|
| C01-C03 | `PDFBase.output`, `parse_obj` over an object tree | induction over the object list with the running offset as invariant; the file is an explicit byte list |
| C04 | `PDFBase` as a state machine with add/get/set | invariant over operation histories |
| C05, C06 | `parse_obj/parse_dict/parse_list` against an independent PDF object reader | mutual induction on the tree, reader correct for any continuation; backslash refuted |
| C07-C09 | `parse_stream`, `encode_stream` with dictionaries as ordered association lists | symbolic execution of the pop/restore sequence; failure refuted |
| C10 | `_build_pages_tree` over the object store | loop invariant |
| C11 | `_build_dests_tree` | strong induction on the number of labels, independent lookup function |
| C12, C13 | `_build_outlines_tree`, outline insertion of `_add_text` | mutual induction over forests |
| C14 | `to_roman` | exhaustive kernel computation over 1..3999 (the whole domain) |
| C15-C17 | `parse_range_string`, `parse_pos_string`, `parse_margin` | induction over the item list, printing/parsing of integers |
| C18, C55 | `add_page`, `setup_page`, page cursor | case analysis, rational arithmetic |
| C19 | `parse_jpg` over arbitrary bytes | structural recursion on the input, relation of well formed segments |
| C20-C22 | document state machine for images, fonts, links | invariants over histories |
| C23 | `create_graphics` against a graphics-state interpreter | simulation by induction over the list |
| C24 | `PDFState.compare`, `output_text` against a text-state interpreter | simulation |
| C25, C26 | `escape_string`, `clean_words`, `encode_text` against a literal-string reader | induction over the string |
| C27, C28 | `compute_char_widths`, `get_tounicode_cmap` | induction over the sorted map |
| C29, C30 | `PDFFonts` with the process-global tables | state machine; refutation |
| C31-C38 | the whole line breaker of text.py | invariants of the `run` loop |
| C39 | `_recursive_content_parse` | mutual induction over nested content |
| C40, C41 | `parse_style_str`, `parse_color` | case analysis over split strings |
| C42-C46 | table.py with the cell contents as arbitrary resumable processes | invariants of the `run` loop |
| C47-C50 | content.py with paragraphs/tables/images as arbitrary resumable processes | invariants over the steps of a box, mutual induction over nesting; groups as two passes; for the bottom of columns, two passes over equal rectangles agree, so the search for the height never steps below the first one |
| C51 | `get_state`/`set_state` of boxes; `copy` over a heap of lists and dicts | simulation between two boxes in the same state; reachability in the heap |
| C52 | `_traverse_document_footnotes`, `_add_content`, `_check_footnotes` with paragraphs run in a context | the second pass of a page shows a beginning of the first one; induction over pages |
| C53 | `PDFDocument.__init__`, `_process_section`, `_set_running_sections` | folds over the rules of a page |
| C54 | `get_page_number`, the numbers of all pages of a built document (`DocNumber.v`) | case analysis; for documents, induction over the sections and pages with an independent relation `numbered` |
| C56 | the dicts that a build changes: ids of notes, tries of images and groups, merged styles | the changed description builds the same; refutations with concrete histories |
| C57, C58 | `parse_jpg` with fill bytes; Count of closed outlines | refutation; induction over forests |
| C59 | `output_graphics`, `add_line_to_stream` | replay of the operators by an independent interpreter |
| C60 | `PDFTextLine.height`, `bottom`, `add_current_line` | invariant that ties the room used by the lines to their position |
| C61 | `process_borders`, `compare_borders` and the borders part of `add_row`, `run` | lines as runs of edges; invariant over the cells of a row and over rows |
| C62 | fills in `add_cell`, `add_row`, `run` | invariant on pending fills |
| C64, C65 | `PDF.text`, `PDF.table`, `PDF.content` and their loops over pages, `_add_parts`, with the cursor | induction over the loop; C31, C32 and C35 for paragraphs |
| C66 | `process_style`, `get_element_styles`, `get_cell_style`, the styles of tables, boxes, groups and the document, over trees of elements | induction over the tree: what is passed down is what the elements so far say |
| C67, C68 | `PDFImage.__init__` with its `finally`, `parse_png` around an arbitrary Pillow, `PDF.add_image`, `PDFPage.add_image` | computation on the reader of graphics operators; case analysis of the constructor |
| C69 | `PDFContentPart` as for C48; ContentApart.v | invariant of a run: what was placed since a box began sits in its columns up to the present one, and in that one above the cursor; what was placed before is laid out for the box around, above the top of the box |
| C70 | `PDFBase.output` as for C01; Base.v | the header written is the front of the file; the comment line is its second line by the first line feed after the version |
| C71 | `encode_stream`, `parse_stream` | case analysis against an independent list of the filters |
| C72 | `PDFTextLine.add_word`, `add_accumulated`, lines of `PDFText.run` | invariant of the words of lines over every run (white space next to white space, ends of lines); refuted at borders of parts and before line breaks |
| C73 | `PDFContent.run`, `PDFContentPart` as for C48; ContentHeight.v | the invariant of C69 at the end of a run; the top of the outermost box never moves; with one column, the cursor is at the bottom of something that was shown |
| C74 | table.py `add_cell`, `add_row`, `is_span`; TableHeight.v | the spans open after a row are owed what their cell needs less the rows since; the height of a row is the largest of what ends in it; refuted by rows where nothing fits |
| C75 | Whole.v: text.py, table.py and content.py put together as they call each other, with `get_state`/`set_state` between pages; `PDF.text`, `PDF.table`, `PDF.content` | each kind of element shows what it has left, once, and has an invariant between runs; boxes from the order of C47, tables by a scan of each row with the cells to be continued (TableTokens.v); induction on the depth; boxes of several columns (ContentCols.v, PColumns.v): an invariant over the stack of boxes says what the parts shown since each of them began stand for, so going back to the beginning of a section and truncating the parts keeps the account, if the elements can be set back (C47_columns_partial) or the sections begin with nothing delayed (C75_columns_*) |
| C76 | Alone.v: a page as the list of the things added to it, with the streams of Gfx.v and TextLayout.v; the reader of Gfx.v; ISO 32000-1 figure 9 as an automaton | two readers that differ only in what text operators set are followed through the same operators: a paragraph sets everything before it shows anything, graphics and images are between `q` and `Q`; false for list texts with a space inside and for text without a colour |
| C77 | PListText.v: the font selected for a list text and the font whose glyph numbers are written, as two requests to the fonts of the document; the literal-string reader of PdfSyntax.v | a font requested again is the same font; induction over the text with the depth of parentheses |
| C78 | PageText.v: the format strings of text.py, utils.py, page.py and color.py as a relation between operators and texts, how Python prints ints and floats; a tokenizer and a table of operators written from ISO 32000-1 | each format reads as its operator, whatever comes after it; rounded numbers are never printed with an exponent; invariant of the emission that all numbers are rounded |
| C79 | DocStyles.v: the document's style, formats, the boxes of sections, running sections and notes, on top of Styles.v | the theorem of C66 for the box of each, then what is said above it |
| C80 | FontDesc.v: the tables of a font as a record of the fields that are read | case analysis; bits of the flags; floor of a square |
| C81 | `_add_content` with the box of footnotes run to measure it and again to show it (`NotesPlace.v`) | C48's invariant for the second pass from the saved state; a column of paragraphs as a recursive function, moved as a whole; C52 for which footnotes the second pass needs |
| C82 | TextVars.v: the parts with `var` and the text they get at each run, over rectangles with their own values | the chunks of C31 are the pieces of the paragraph with the values put in, whatever the values; a place between pieces stays one when single words change |
| C83 | Whole.v, as for C75; ContentRoom.v (boxes), TableRoom.v (tables), WholeRoom.v | a predicate on what is shown in a rectangle that holds in a larger one as well; the invariants of C48 and of the rows of tables, for elements that have it; induction on the depth |
| C84 | Whole.v, as for C75; TextTerm.v (paragraphs), TableEnds.v (tables), ContentEnds.v (boxes), WholeEnds.v | a natural number for what is left to do, which no run makes larger and each run in a full page makes smaller; a run never raises and the fuel of the model suffices; induction on the depth and on the number of pages; with C75 all words are shown |
| C85 | PdfWhole.v (portions of the pages put into their streams, the file of all objects), on PdfObj.v and Base.v; PdfReader.v and FileSpec.v (what a reader of bytes finds); GoodObjs.v, FileProofs.v | every object stays readable and every stream stays apart from the nodes of trees through each operation and the building of the trees; then the object theorems (C10-C12, C20-C22) are carried to the bytes by C01, C03, C05 and C07 |
| C86 | no new code: TextLayout.v, Table.v, Content.v, Whole.v, PageText.v, PdfObj.v, PdfWhole.v and Base.v joined; WholeFile.v (what a reader of bytes sees: fonts looked up in the resources, streams inflated, operators executed), TextSplit.v, WholeMade.v | the words of contents are the words of the lines drawn (C75), the parts of the lines are what the operators show (C24, C59, C78), the operators are in the bytes and the fonts behind their names (C85); reading is a function of the bytes |
| C87 | Links.v: the dictionary of ids of a paragraph and the prefixes that tell labels, references, addresses and outlines; LinkFile.v: the specification (the link an id stands for, the parts of lines with links, their areas) | the rectangles of the ids are the boxes of the parts with the id (C39, C59); the dictionary is a permutation of them; the operations that add the paragraphs give the links of C85; with C75 every word has its part |
| C88 | Calls.v: a document as the calls of its methods (add_page, text, table, content) run over the pages of Flow.v with the elements of Whole.v, and how what they draw is handed to the pages (`_add_graphics`, `_add_parts`, `_add_text`); CallsProofs.v: the specification `by_page` (what lies between one new page and the next) | one call after another an invariant of the pages (their geometry is that of the document, the cursor inside) and the words of each call from C75 and C64/C65; the pieces handed over are those drawn, page by page, then C86 and C87. Partial: no running sections, the elements of C75, printing of operators as a hypothesis |
| C89 | the calls of Calls.v with the conditions of C84 | the first run of a call may be in any rectangle, the others are in whole pages of the document: by induction on the number of pages of C84, then call after call with the invariant of C88. Partial: the elements of C84, no running sections |
| C90 | the calls of Calls.v with the conditions of C83 | each call draws in the rest of the current page and then in whole pages (C88_breaks), C83 places what it draws in these rectangles, and these lie between the margins of the document; by induction on the calls with the invariant of C88. Partial: the elements of C83, no running sections, no lines and fills |
| C91 | the calls of Calls.v; CallsCover.v states of each element that the height it takes reaches below all that it draws, ContentCover.v of a box of one column that its cursor is below all that it has placed, TextNonneg.v that the height of a text is not negative | by induction on the depth of the tables (text_covers, table_covers, content_covers) the cursor after a call is at or below the bottom of all that the page shows; by C90 the next call draws below the cursor. Partial: before the call only pages, texts, tables without cells over several rows or images, and contents of texts and groups of texts in one column; C91_after_partial lets any calls come before those |
| C63 | `__init__`, `set_default_border`, `setup_borders`, `get_border`, `setup_fills` | induction over the list of definitions, C16 for each range |

## Assumptions

`Print Assumptions` is run after every property theorem in the `P*.v` files.
For each theorem named in MANIFEST.json (C01 to the last one) it prints
"Closed under the global context": no axiom is used, neither ours nor of the
standard library.  Only Coq's standard library is imported.  (A listing of all
the axioms of all the loaded libraries has seven constants of
`Coq.ssr.ssrunder`; they come with loading `Lia` and `String` and no theorem
depends on them.)

## Which parts of the code are modelled

| file | modelled | where | not modelled |
|------|----------|-------|--------------|
| base.py | all | Base.v | |
| parser.py | all | Parser.v | |
| encoders.py | all; zlib is a parameter | Parser.v | |
| color.py | all | Color.v | |
| fonts.py | the standard widths, font lookup and registering, the width array, the ToUnicode map, text encoding, the font objects, the font descriptor | FontTables.v, Fonts.v, PdfObj.v, FontDesc.v | fontTools |
| image.py | all; Pillow is any function from bytes and position to JPEG bytes | Jpeg.v, ImageAdd.v | the message printed with an exception |
| page.py | all | PageGeom.v, PdfObj.v, Alone.v | |
| utils.py | all but `subs` | Margins.v, StyleStr.v, Gfx.v, Roman.v, Copy.v, Ranges.v, Fonts.v | `subs` (string formatting) |
| text.py | all | TextLayout.v, TextVars.v, RichText.v | |
| table.py | all; what a cell shows is a parameter (put together in Whole.v), styles are in Styles.v | Table.v, TableDefs.v, Ranges.v, Styles.v, Whole.v | |
| content.py | all; paragraphs and tables are parameters (put together in Whole.v), styles are in Styles.v | Content.v, Styles.v, Whole.v | |
| document.py | all | Document.v, Footnotes.v, NotesPlace.v, DocStyles.v | |
| pdf.py | pages, fonts, images, links, labels, outlines, output, page numbers, position, adding over several pages | PdfObj.v, PageGeom.v, Flow.v, PageTree.v, NameTree.v, OutlineTree.v, Store.v, Styles.v, PdfWhole.v, Links.v, Calls.v | |

Parameters are Section variables in the models and universally quantified in
the theorems: any element, any state, any result of running it, with the
hypotheses on them written in each statement.

## Findings

Each line is a behaviour of the code that breaks what a user would expect.
Those with a theorem are proved of the model.

Serialization and files
* a backslash is not escaped in literal strings (C06_text_survives_refuted)
* when encoding a stream fails, its dictionary is left changed (C09_failed_write_refuted)
* fill bytes before a JPEG marker are not skipped (C57_fill_bytes_refuted)
* the Count of a closed outline item is not that of the standard (C58_closed_count_refuted)

Utilities
* ranges with a negative step, or with a start before the beginning and a step above 1 (C16_positions_refuted)
* margins: a text of one number, a tuple of three (C17_margin_refuted); a dict without one side raises KeyError
* style strings: "b:1" raises ValueError, " s:10" raises, "c:foo" raises TypeError (C40_style_strings_refuted)
* colours: two components silently give no colour, "#-12345" has a negative component, RGBA raises when written (C41_invalid_refuted)
* `PDFColor` defines `__neq__`, which `!=` never calls

Fonts
* text in embedded fonts with parentheses, backslashes, glyph ids with a byte 13 or surrogates (C26_embedded_text_refuted)
* text in embedded fonts whose style has `b` or `i` present but false is written with glyph numbers of the other mode (C26_mode_refuted)
* list text: `1)` in a standard font breaks the stream (C77_parentheses_refuted); in an embedded font after a bold first part it is written with the glyph numbers of the normal font (C77_mode_refuted)
* blocks of the ToUnicode map may have more than 100 entries; Symbol and ZapfDingbats get WinAnsiEncoding
* a registered font is forgotten after the first document of a process that uses it (C29_registered_fonts_refuted); a font added over one already in use (C21_fonts_refuted)
* widths and ToUnicode entries of particular numberings of glyphs (C27_widths_refuted, C28_tounicode_refuted)
* `output_text` picks the encoding by the presence of a key in the style

Paragraphs
* a line taller than the page: no run makes progress and adding pages never ends (C35_tall_refuted)
* list text is not escaped, keeps an old word spacing (C76_list_text_refuted), may exceed the height
* the indent after a list text is not rounded: one below 1/10000 is printed as `1e-05`, which is not a number in a stream (C78_exponent_refuted)
* a list text higher than the first line is not counted in the height, so the lines go below the rectangle (C60_list_refuted); right-aligned lines of a list paragraph end beyond the right edge (C38_list_right_refuted)
* a list paragraph that begins with a line break raises
* colour None is painted with the previous colour (C76_colour_refuted)
* blank lines take about `line_height` points
* text lowered before a line break is overlapped by the next line (C60_lines_apart_refuted)
* the penultimate line may be taken for the last one when justifying (C37_penultimate_refuted); doubled spaces at the end of a line squeeze it (C37_squeeze_refuted)
* list and indented paragraphs: C34_break_refuted, C34_continuation_refuted, C38_indent_refuted
* `set_state` does not restore the first line flag nor the finished flag (C36_first_line_refuted, C36_finished_refuted)
* a paragraph with an outline that continues in another page adds the outline twice
* doubled spaces over two parts are kept
* ids are recorded only for parts that show something other than spaces

Tables
* `set_state` has `elif` where `if` is meant: pending cells are not restored (C42_restore_refuted)
* an empty table raises AttributeError when it is run
* a cancelled row loses what its cells drew (C43_cancel_refuted)
* the rows left of a finished cell over several rows are forgotten at a page break (C46_page_break_refuted)
* a finished cell over several columns gets lines inside it in its continuation (C61_continued_refuted)
* after a cell of one column and three rows or more, the top border of a cell over several columns is cut (C61_stale_refuted)
* a coloured cell whose rowspan goes past the end of the table is never filled (C62_fills_refuted)
* rows of empty cells (4 points each) never break the page; a row where nothing fits any more takes 4 points below the room of the table (C74_height_refuted)
* the bottom line of an interrupted row has the border above the row
* overlapping spans postpone pending cells
* an image too high for its cell never raises and never ends (C49_cells_refuted)

Content boxes
* a flowing image that waits, followed by a nested box as the last element: its text is shown again (C47_flow_refuted)
* the second pass of a group may start lower than the first one and cut or lose its last element (C50_all_refuted); growing images push a following one out (C50_images_refuted)
* the place kept for a nested box while an image waits is not in the state (C51_partial_memory_refuted)
* an invalid `image_place` retries the image 50 times and raises
* `add_delayed` goes to the next section when one element remains and something is delayed
* balancing columns: the state of tables is not restored, lines and fills are not truncated, tries are counted in every pass
* balancing the columns of a page that begins inside columns: a paragraph with lines of different heights loses lines (C75_columns_refuted), because `PDFText.set_state` leaves `last_part_line`, `last_word_line`, `is_first_line` and `list_setup_done` as the earlier try left them; a list paragraph loses its mark (C75_list_mark_refuted); a table loses the contents of cells (C75_table_columns_refuted)
* `process_text` changes the style of the element
* `copy` does not copy tuples or objects

Documents
* building changes the description: footnotes get ids (C56_refuted), sections used again may raise IndexError (C56_reuse_refuted), images and groups keep their tries and the 51st build raises (C56_tries_refuted)
* the style of a page rule stays for the following pages and sections (C53_style_refuted, C53_section_style_refuted)
* a running section position given as None is not the documented default (C53_none_refuted)
* the numbers of footnote marks come from the first pass and the list from the second one (C52_refuted); with ten notes or more the widths change between passes
* a footnote with a text as `style` raises
* the running sections are drawn in the order of a set
* an image is drawn above the cursor: `y` is its bottom, not its top as documented (C67_top_refuted)
* a stream with an image is parsed from its position and embedded from its beginning (C68_position_refuted)
* a file named `.jpg` is an image as text and not as a `Path` (C68_same_path_refuted)
* with an image that waits for its place and a box after it in a box of several columns, balancing can show the box below the bottom of the rectangle (C48_bottom_refuted; same cause as C47_flow_refuted: what is kept about the partial box is used up by the first try)
* when such a box is inside columns that are followed by another element, that element lies on it (C69_refuted), because the height reported ends above it (C73_height_refuted)
* white space at the end of one part of a text and at the beginning of the next gives two spaces after the second word of a line; a space before a line break or the end of the text stays at the end of the line, so right-aligned lines are shifted (C72_spaces_refuted)
* the comment under the header has the bytes 0x12 and '9' where four bytes from 128 on were meant, so no file is marked as binary (C70_header_refuted)
* after `PDF.table` and `PDF.content` the cursor is moved again for each paragraph and image of the element (C65_cursor_refuted)
* `PDF.text` has its own defaults for `line_height` and `indent`: those of the document are not used (C66_text_refuted)
* a dict used at two places has at the second the style it got at the first (C66_shared_refuted)
* the style of a table that is in a cell cannot set the margins and fill of its own cells: they are taken for the cell it is in (C66_inner_table_refuted)
* a cell that is a dict without content, or with a group, never finishes: the pages of the table never end
* a number among the elements of a content box raises AttributeError (the text made of it is not made a dict)
* a coloured cell with a table inside hides the colours of the inner table: its fill is added after them
* a note whose style is a name (`'style': 'link'`) raises AttributeError: the name is updated as a dict (C79_notes_refuted)
* a font without OS/2 table raises AttributeError (C80_no_os2_refuted); the name of an embedded font is the seventh record of its name table, which is the PostScript name only if records 0 to 6 are there (C80_name_refuted, C80_few_names_refuted)
* a footnote with a line or row so high that what does not fit leaves 30 or more of an empty page free loses what did fit: it is measured by one run and shown by the next one, which goes on after it (C81_cut_refuted); when a group or flowing image moves to the next page in the second pass, the footnotes of what takes its place are put in the room measured for others and can end below the bottom margin or off the page (C81_group_refuted)
* a variable of several words whose value changes between two pages is shown as the beginning of the old value and the end of the new one (C82_words_refuted); a line feed in a value is shown as a character and not as a line break (C82_break_refuted)
* a table with an image in a cell that is higher than a page adds pages without end (C84_image_refuted)
