{"id": "C01", "title": "Cross-reference offsets point at their objects", "statement": "In every file written by PDFBase.output, the k-th in-use entry of the xref table holds the exact byte offset, counted from the first byte of the file, at which the text 'k 0 obj' followed by a newline starts, and the serialized k-th object plus 'endobj' follows it.", "quantifier": "every sequence of add / replace calls, every version string and every object (any nesting, any stream size) that serializes without error", "why_tests_cant": "Offsets depend on the byte length of every earlier object; a test fixes a handful of documents while the claim is about all lengths and all counts.", "anchors": ["pdfme/base.py:PDFBase.output", "pdfme/base.py:PDFBase.add", "pdfme/parser.py:parse_obj"]}
{"id": "C02", "title": "startxref points at the xref keyword", "statement": "The number written after 'startxref' is the byte offset of the keyword 'xref' in the file, and the file ends with '%%EOF'.", "quantifier": "every document that serializes without error", "why_tests_cant": "The offset is a running sum over unboundedly many objects of unbounded sizes.", "anchors": ["pdfme/base.py:PDFBase.output"]}
{"id": "C03", "title": "xref section shape and trailer Size", "statement": "The xref section announces '0 n+1' for n objects, starts with the free entry, has exactly n in-use entries each exactly 20 bytes long as long as the file is shorter than 10^10 bytes, and the trailer's Size equals n+1.", "quantifier": "every history of add calls and every object content", "why_tests_cant": "Field widths overflow only for sizes no test reaches; the count must match for all histories.", "anchors": ["pdfme/base.py:PDFBase.output", "pdfme/base.py:PDFBase.__init__"]}
{"id": "C04", "title": "Object ids are dense, unique and stable", "statement": "The i-th successful add returns id i; ids are never reused; looking an id up returns the object that add returned (unless that slot was explicitly replaced), whatever is added later; a rejected add (unsupported type) changes nothing; index 0 is never an object.", "quantifier": "every interleaving of add, rejected add, lookup and replacement", "why_tests_cant": "It is an invariant over all histories.", "anchors": ["pdfme/base.py:PDFBase.add", "pdfme/base.py:PDFBase.__getitem__", "pdfme/base.py:PDFBase.__setitem__"]}
{"id": "C05", "title": "Serialized objects read back as the same object", "statement": "The bytes produced for any tree of dictionaries, arrays, booleans, integers, references, name bytes and strings are parsed by a conforming PDF object reader back to that same tree, whatever bytes follow.", "quantifier": "every finite object tree whose leaves are representable (names made of regular characters, strings without backslash or CR)", "why_tests_cant": "Separators between adjacent tokens must be right for every pair of neighbours at every depth.", "anchors": ["pdfme/parser.py:parse_obj", "pdfme/parser.py:parse_dict", "pdfme/parser.py:parse_list"]}
{"id": "C06", "title": "Any text string survives serialization", "statement": "A python str made of latin-1 characters (a URI, label, outline title) given as an object is read back by a PDF reader as exactly those characters.", "quantifier": "every latin-1 string, including those with parentheses, backslashes and line ends", "why_tests_cant": "The failure needs particular characters in particular positions.", "anchors": ["pdfme/parser.py:parse_obj"]}
{"id": "C07", "title": "Stream Length equals the payload size", "statement": "For every stream object the Length entry in the emitted dictionary equals the number of bytes between 'stream' newline and newline 'endstream', the payload is the encoded concatenation of the chunks in insertion order, and a caller-supplied Length is overridden.", "quantifier": "every stream dictionary, chunk sequence and filter setting that is accepted", "why_tests_cant": "Quantifies over all payloads and chunkings.", "anchors": ["pdfme/parser.py:parse_stream", "pdfme/encoders.py:encode_stream", "pdfme/page.py:PDFPage.add"]}
{"id": "C08", "title": "Writing the file twice gives the same object bytes", "statement": "Serializing an object does not change what a later serialization of it produces: outputting the same base twice yields the same bytes for every object.", "quantifier": "every object tree that serializes without error", "why_tests_cant": "Hidden mutation of the input dictionaries must be undone for all shapes.", "anchors": ["pdfme/parser.py:parse_stream", "pdfme/base.py:PDFBase.output"]}
{"id": "C09", "title": "A failed write leaves the document unchanged", "statement": "If serialization raises (unsupported filter), the objects of the document are as before and can be fixed and output again.", "quantifier": "every object and every point at which serialization raises", "why_tests_cant": "It is about every failure point.", "anchors": ["pdfme/parser.py:parse_stream", "pdfme/encoders.py:encode_stream"]}
{"id": "C10", "title": "Page tree lists every page once in order", "statement": "After output, following the catalog's Pages entry down the Kids reaches each added page exactly once, in the order the pages were added; each Count equals the number of leaf pages below; each page's Parent is the node listing it and its MediaBox is its width and height.", "quantifier": "every number of pages >= 1 and every page geometry", "why_tests_cant": "Tree splitting boundaries occur at arbitrary counts.", "anchors": ["pdfme/pdf.py:PDF._build_pages_tree", "pdfme/pdf.py:PDF.output"]}
{"id": "C11", "title": "Named destinations are found by name-tree lookup", "statement": "For any set of labels, the standard name-tree lookup (guided by Limits) in the tree reachable from the catalog's Names/Dests finds each label with its destination and finds nothing for any other name; all leaves are sorted, and the construction terminates.", "quantifier": "every finite map of labels to destinations", "why_tests_cant": "Tree depth and boundary keys vary with the number of labels.", "anchors": ["pdfme/pdf.py:PDF._build_dests_tree", "pdfme/pdf.py:PDF._build_dests"]}
{"id": "C12", "title": "Outline objects form the outline forest", "statement": "Walking First/Next from the outline root in the written objects visits exactly the outline forest in order with right titles and destinations; Prev, Last and Parent are consistent; the root Count is the number of items visible with outlines_level levels open.", "quantifier": "every outline forest and every outlines_level", "why_tests_cant": "Pointer consistency for all tree shapes.", "anchors": ["pdfme/pdf.py:PDF._build_outlines_tree", "pdfme/pdf.py:PDF._build_outlines"]}
{"id": "C13", "title": "Outlines keep document order and level", "statement": "Adding an outline of level L (with an open ancestor chain) appends it as last child at depth L, so a preorder walk lists outlines in the order they were added, each at its depth; without an ancestor chain the add raises and nothing is stored.", "quantifier": "every sequence of (level, title, label) triples", "why_tests_cant": "Depends on the whole history of levels.", "anchors": ["pdfme/pdf.py:PDF._add_text"]}
{"id": "C14", "title": "Roman page numbers are right", "statement": "For every integer 0<n<4000 to_roman gives the standard (canonical subtractive) Roman numeral of n; outside that range it raises; the mapping is injective.", "quantifier": "all 3999 values and all integers outside the range", "why_tests_cant": "Tests sample; canonicity and injectivity are about all values.", "anchors": ["pdfme/utils.py:to_roman", "pdfme/utils.py:_roman_ten"]}
{"id": "C15", "title": "Page range strings denote the intended page set", "statement": "For a comma separated list of 'i', 'i:j', ':j' or 'i:j:k', membership in the parsed range is membership in the union of the python ranges; anything malformed raises.", "quantifier": "every list of range items, every page number", "why_tests_cant": "Membership must be right for all integers, including negative steps.", "anchors": ["pdfme/utils.py:parse_range_string", "pdfme/utils.py:MuiltiRange"]}
{"id": "C16", "title": "Table position strings select the intended cells", "statement": "A pos string of a fill or border selects exactly the (row, column) pairs described by python slice rules with negative indexes counted from the end, defaulting to everything.", "quantifier": "every pos string built from ints, comma lists and slices, every row and column count", "why_tests_cant": "Boundary indexes depend on counts.", "anchors": ["pdfme/table.py:PDFTable.parse_pos_string", "pdfme/table.py:PDFTable.parse_range_string"]}
{"id": "C17", "title": "Margin shorthand expands like CSS", "statement": "A number or a list of 0 to 4 (or more) numbers gives the documented top/right/bottom/left margins, a dict is returned as it is, other types raise.", "quantifier": "every margin value of every accepted type", "why_tests_cant": "All lengths and types; shape errors appear only for particular type/length pairs.", "anchors": ["pdfme/utils.py:parse_margin"]}
{"id": "C18", "title": "Page size and rotation", "statement": "add_page creates a page whose size is the given or default one, swapped exactly when rotation is requested by argument or default, with per-page margin overrides merged into the defaults, without changing the defaults.", "quantifier": "every combination of defaults and arguments", "why_tests_cant": "Combinatorial decision over optional arguments.", "anchors": ["pdfme/pdf.py:PDF.add_page", "pdfme/pdf.py:PDF.setup_page", "pdfme/utils.py:get_page_size"]}
{"id": "C19", "title": "JPEG dimensions come from the frame header", "statement": "For any byte sequence that is a chain of well formed JPEG marker segments up to a start-of-frame, the image's width, height, bit depth and colour space are those of the first frame header; any other byte sequence ends with ValueError; the scan always terminates.", "quantifier": "every byte sequence", "why_tests_cant": "Input is arbitrary binary data; termination and precise parsing over all inputs.", "anchors": ["pdfme/image.py:PDFImage.parse_jpg"]}
{"id": "C20", "title": "Images are embedded once and named consistently", "statement": "However many times and on however many pages images are added, each image name yields one image object; on every page each used image has its own resource name, different images have different names, and every drawing command uses a name bound to the right object.", "quantifier": "every sequence of image additions over pages", "why_tests_cant": "Invariant over histories.", "anchors": ["pdfme/pdf.py:PDF.add_image", "pdfme/page.py:PDFPage.add_image"]}
{"id": "C21", "title": "Fonts are embedded once and declared on the pages using them", "statement": "Each used (family, mode) yields one font object per document, different fonts get different resource names, and every page on which text uses a font lists the font in its resources under that name.", "quantifier": "every sequence of text additions over pages", "why_tests_cant": "Invariant over histories.", "anchors": ["pdfme/pdf.py:PDF._add_or_get_font", "pdfme/pdf.py:PDF._used_font", "pdfme/page.py:PDFPage.add_font", "pdfme/fonts.py:PDFFonts"]}
{"id": "C22", "title": "Links, references and labels", "statement": "Every rectangle of a uri part becomes one link annotation to an action holding exactly that uri, with one action object per distinct uri in the document; each ref rectangle becomes one annotation naming the label; a label's destination is its first rectangle on the page it was last placed on.", "quantifier": "every sequence of added paragraphs and their ids", "why_tests_cant": "Invariant over histories.", "anchors": ["pdfme/pdf.py:PDF._add_text", "pdfme/page.py:PDFPage.add_annot"]}
{"id": "C23", "title": "Graphics are painted with their own colour, width and dash", "statement": "Executing the operators generated for a list of fills and lines paints exactly those rectangles and segments, in order, each with its own colour, width and dash style: the elision of repeated state operators is invisible; saves and restores are balanced.", "quantifier": "every list of graphics", "why_tests_cant": "State caching bugs need particular sequences.", "anchors": ["pdfme/utils.py:create_graphics"]}
{"id": "C24", "title": "Text is shown with its own font, size, colour and rise", "statement": "Executing the operators generated for the parts of a paragraph shows every part with its own font, size, colour, rise and word spacing: the elision of unchanged state is invisible.", "quantifier": "every sequence of line parts", "why_tests_cant": "State caching bugs need particular sequences.", "anchors": ["pdfme/text.py:PDFState.compare", "pdfme/text.py:PDFTextBase.output_text"]}
{"id": "C25", "title": "Literal strings in text operators decode to the text", "statement": "For text in a standard font the parenthesised operand decodes, under PDF literal string rules, to exactly the characters of the words (for text without line end characters).", "quantifier": "every string", "why_tests_cant": "Escaping must be right for every string.", "anchors": ["pdfme/text.py:PDFTextBase.clean_words", "pdfme/utils.py:escape_string"]}
{"id": "C26", "title": "Text in an embedded font decodes to its glyphs", "statement": "For text in an embedded TrueType font the operand decodes, under PDF literal string rules and two-byte codes, to exactly the glyph ids of the characters.", "quantifier": "every string over the font's characters and every glyph numbering", "why_tests_cant": "Fails only for particular glyph ids or characters.", "anchors": ["pdfme/fonts.py:PDFTrueTypeFont.encode_text", "pdfme/utils.py:as_hex", "pdfme/text.py:PDFTextBase.output_text"]}
{"id": "C27", "title": "Embedded font widths array", "statement": "The W array gives, to every glyph reachable from the character map, exactly its scaled advance width.", "quantifier": "every character map and glyph numbering", "why_tests_cant": "Run-grouping errors appear only for particular numberings.", "anchors": ["pdfme/fonts.py:PDFTrueTypeFont.compute_char_widths"]}
{"id": "C28", "title": "ToUnicode map", "statement": "The ToUnicode CMap of an embedded font maps every used glyph id's 4-digit code back to a character mapped to it, with one entry per character.", "quantifier": "every character map", "why_tests_cant": "All code points and glyph ids.", "anchors": ["pdfme/fonts.py:get_tounicode_cmap"]}
{"id": "C29", "title": "Registered fonts work in every document", "statement": "A font family and mode registered once can be used in any number of documents built afterwards in the same process.", "quantifier": "every sequence of documents and font requests", "why_tests_cant": "Needs a history of several documents; state is process-global.", "anchors": ["pdfme/fonts.py:PDFFonts.get_font", "pdfme/fonts.py:PDFFont.register"]}
{"id": "C30", "title": "Standard fonts resolve for every style", "statement": "For every standard family and every bold/italic combination a font is found, being the exact variant when it exists and the regular one otherwise, and every latin-1 text can be measured.", "quantifier": "all styles and all latin-1 strings", "why_tests_cant": "Measured text is unbounded.", "anchors": ["pdfme/fonts.py:STANDARD_FONTS", "pdfme/fonts.py:PDFStandardFont.get_text_width", "pdfme/text.py:PDFState.__init__"]}
{"id": "C31", "title": "A paragraph's words are all placed once and in order", "statement": "Running a paragraph over any sequence of rectangles until it is finished emits every non-blank word of its parts exactly once, in order, with its own style and ids; at every interruption the emitted words plus the words from the saved position on are the whole text.", "quantifier": "every content, every font metric, every sequence of rectangle sizes", "why_tests_cant": "Break positions depend on all widths and heights; resumption multiplies the cases.", "anchors": ["pdfme/text.py:PDFTextBase.run", "pdfme/text.py:PDFTextBase.add_part", "pdfme/text.py:PDFTextLine.add_word", "pdfme/text.py:PDFTextBase.add_current_line"]}
{"id": "C32", "title": "A paragraph never exceeds its rectangle's height", "statement": "The height used by a run is the sum of the heights of its lines (first at face value, others times line_height), never exceeds the rectangle's height, equals the vertical displacement of the text cursor (paragraphs without list text), and a line that would fit is never left out.", "quantifier": "every content and rectangle", "why_tests_cant": "Boundary arithmetic over all inputs.", "anchors": ["pdfme/text.py:PDFTextBase.add_current_line", "pdfme/text.py:PDFTextBase.add_line_to_stream"]}
{"id": "C33", "title": "Lines fit the width", "statement": "Every emitted line either consists of a single unbreakable chunk or its width at minimal spacing is below the available width; lines break only at spaces.", "quantifier": "every content without list text, every width, alignment and metric", "why_tests_cant": "Break decisions over all metrics.", "anchors": ["pdfme/text.py:PDFTextLine.add_word", "pdfme/text.py:PDFTextBase.init"]}
{"id": "C34", "title": "Lines of list paragraphs fit beside the list text", "statement": "In a list paragraph every line fits in the width left by the list indent, also after explicit line breaks and on continuation pages.", "quantifier": "every list paragraph and rectangle sequence", "why_tests_cant": "Depends on where page breaks fall.", "anchors": ["pdfme/text.py:PDFTextBase.setup_list", "pdfme/text.py:PDFTextBase.init", "pdfme/text.py:PDFTextBase.run"]}
{"id": "C35", "title": "Paragraph pagination terminates when lines fit a page", "statement": "PDF.text finishes after finitely many pages whenever every line of the paragraph is at most as high as a page's content height; each page then makes progress.", "quantifier": "every content and page geometry", "why_tests_cant": "Termination is not testable.", "anchors": ["pdfme/pdf.py:PDF.text", "pdfme/text.py:PDFTextBase.run"]}
{"id": "C36", "title": "Restoring a paragraph checkpoint replays the same text", "statement": "set_state(get_state()) on a paragraph followed by run yields the same words and break positions as the run made from that checkpoint before, whatever was run in between.", "quantifier": "every content, every intermediate history of runs", "why_tests_cant": "Needs particular histories.", "anchors": ["pdfme/text.py:PDFTextBase.get_state", "pdfme/text.py:PDFTextBase.set_state"]}
{"id": "C37", "title": "Justified lines fill the width", "statement": "In justified text every emitted line that is not a paragraph's or forced-break's last line and has a space is stretched to end exactly at the right edge, and its spaces are never narrower than 70% of their natural width.", "quantifier": "every content, metric and width", "why_tests_cant": "Rational arithmetic over all inputs.", "anchors": ["pdfme/text.py:PDFTextBase.add_line_to_stream"]}
{"id": "C38", "title": "Lines start at the intended left edge", "statement": "The accumulated horizontal text displacement of every line equals the x used for its underline, background and id rectangles; for left-aligned text this is indent on the first line and 0 on the others.", "quantifier": "every content, alignment, indent and page break position", "why_tests_cant": "Depends on where the page break falls.", "anchors": ["pdfme/text.py:PDFTextBase.add_line_to_stream"]}
{"id": "C39", "title": "Rich text is flattened without loss and with cascading style", "statement": "The parts built from nested paragraph content concatenate to the nested strings in order with a break for each newline, every part carrying the style obtained by cascading defaults, ancestors' and own style, and the ids of its ancestors and itself.", "quantifier": "every nested content", "why_tests_cant": "Arbitrary nesting.", "anchors": ["pdfme/text.py:PDFText._recursive_content_parse", "pdfme/text.py:PDFText._new_text_part"]}
{"id": "C40", "title": "Style strings", "statement": "A style string of documented attributes yields exactly the documented attribute values, later ones overriding earlier ones; anything else raises ValueError.", "quantifier": "every style string", "why_tests_cant": "All strings.", "anchors": ["pdfme/utils.py:parse_style_str"]}
{"id": "C41", "title": "Colour specifications", "statement": "Every documented colour form yields components in [0,1] as documented, hex digits divided by 255; invalid ones raise.", "quantifier": "every colour value", "why_tests_cant": "All values and strings.", "anchors": ["pdfme/color.py:parse_color", "pdfme/color.py:PDFColor.__str__"]}
{"id": "C42", "title": "Restoring a table checkpoint", "statement": "set_state(**get_state()) restores a table to the saved row index and pending cells, whatever was run in between.", "quantifier": "every table state", "why_tests_cant": "Needs particular histories.", "anchors": ["pdfme/table.py:PDFTable.get_state", "pdfme/table.py:PDFTable.set_state"]}
{"id": "C43", "title": "Table rows are all placed once, in order, across pages", "statement": "Running a table over any sequence of rectangles until finished processes every row in order; each cell's content is continued until it is finished, and every cell is started exactly once.", "quantifier": "every table (any spans), every cell content behaviour, every sequence of rectangles", "why_tests_cant": "Break positions depend on all heights.", "anchors": ["pdfme/table.py:PDFTable.run", "pdfme/table.py:PDFTable.add_row", "pdfme/table.py:PDFTable.add_cell"]}
{"id": "C44", "title": "Table column geometry", "statement": "Column widths are proportional to the given widths (equal by default) and sum to the table width; a cell spanning columns j..k starts at the sum of the widths before j and has the sum of the widths of the spanned columns minus borders and margins.", "quantifier": "every widths list, table width and span", "why_tests_cant": "Arithmetic over all inputs.", "anchors": ["pdfme/table.py:PDFTable.__init__", "pdfme/table.py:PDFTable.get_cell_dimensions", "pdfme/table.py:PDFTable.add_cell"]}
{"id": "C45", "title": "Table height accounting", "statement": "The height reported by a table run is the sum of its row heights, each at least the needed height of every non-row-spanning cell of the row, and rows are stacked without gaps or overlaps.", "quantifier": "every table and rectangle", "why_tests_cant": "Arithmetic over all inputs.", "anchors": ["pdfme/table.py:PDFTable.add_row", "pdfme/table.py:PDFTable.run"]}
{"id": "C46", "title": "Spanned cells", "statement": "Cells covered by a column or row span are not processed as cells and have no border inside the span; the first cell after the span is processed.", "quantifier": "every arrangement of spans inside a run", "why_tests_cant": "Arbitrary span layouts.", "anchors": ["pdfme/table.py:PDFTable.is_span"]}
{"id": "C47", "title": "Content boxes place elements in order", "statement": "A single-column content box run over any sequence of rectangles places its paragraphs and tables in order, top to bottom, without overlap, every element starting in order and being continued where it was interrupted; finished is set only when all elements were placed completely.", "quantifier": "every list of elements, every sequence of rectangles", "why_tests_cant": "Break positions depend on all heights.", "anchors": ["pdfme/content.py:PDFContentPart.run", "pdfme/content.py:PDFContentPart.add_elements", "pdfme/content.py:PDFContentPart.add_delayed"]}
{"id": "C48", "title": "Content stays inside the box", "statement": "Every element placed by a content box lies between the top and the bottom of the rectangle, and each column's left edge is min_x + column*(col_width+gap) with the columns filling the width exactly.", "quantifier": "every content box and rectangle", "why_tests_cant": "Arithmetic over all inputs.", "anchors": ["pdfme/content.py:PDFContentPart.update_dimensions", "pdfme/content.py:PDFContentPart.setup", "pdfme/content.py:PDFContentPart.get_min_x"]}
{"id": "C49", "title": "Images keep their proportions and fit", "statement": "An image placed by a content box or a table cell keeps its aspect ratio and never exceeds the remaining height; one that does not fit is delayed, not dropped, and after 50 tries raises.", "quantifier": "every image size, style and remaining space", "why_tests_cant": "Arithmetic over all inputs.", "anchors": ["pdfme/content.py:PDFContentPart.process_image", "pdfme/table.py:PDFTable.process_image", "pdfme/pdf.py:PDF.add_image"]}
{"id": "C50", "title": "Group elements are placed together", "statement": "Either all elements of a group are added to the current rectangle in one go, or none is and the group is delayed whole.", "quantifier": "every group and every remaining space", "why_tests_cant": "All-or-nothing over all geometries.", "anchors": ["pdfme/content.py:PDFContentPart.process_group"]}
{"id": "C51", "title": "Content checkpoints", "statement": "get_state/set_state on a content box return and restore section index, delayed elements and nested memory without sharing mutable structure.", "quantifier": "every content state", "why_tests_cant": "Aliasing needs particular histories.", "anchors": ["pdfme/content.py:PDFContentPart.get_state", "pdfme/content.py:PDFContentPart.set_state", "pdfme/utils.py:copy"]}
{"id": "C52", "title": "Footnotes are numbered per page in order", "statement": "On each page the footnote marks found are numbered 1,2,3,... in order of appearance and the page's footnote list has the corresponding texts with the same numbers.", "quantifier": "every document and page break", "why_tests_cant": "All documents.", "anchors": ["pdfme/document.py:PDFDocument._traverse_document_footnotes", "pdfme/document.py:PDFDocument._check_footnotes", "pdfme/document.py:PDFDocument._get_footnotes_obj"]}
{"id": "C53", "title": "Per-page rules and running sections", "statement": "The running sections drawn on page n are the section's ones, minus excludes plus includes of the matching per_page rules in order; the page style is the section's overridden by the matching rules in order; named positions resolve to the documented margins and sizes.", "quantifier": "every document, rule list and page number", "why_tests_cant": "All combinations.", "anchors": ["pdfme/document.py:PDFDocument._process_section", "pdfme/document.py:PDFDocument._set_running_sections"]}
{"id": "C54", "title": "Page numbers", "statement": "The $page variable on page i is i+1+offset in the chosen style; a section with page_numbering_reset starts at 1.", "quantifier": "every number of pages, offset and style", "why_tests_cant": "All histories.", "anchors": ["pdfme/pdf.py:PDF.get_page_number", "pdfme/document.py:PDFDocument._process_section"]}
{"id": "C55", "title": "Cursor arithmetic of a page", "statement": "y is the distance from the top: setting then reading y returns the value set, moving by a paragraph or image height moves it down by that height, and a new page starts at the top left of its margin box.", "quantifier": "every geometry and sequence of moves", "why_tests_cant": "Arithmetic over all inputs.", "anchors": ["pdfme/page.py:PDFPage", "pdfme/pdf.py:PDF._position_and_size"]}
{"id": "C56", "title": "Building does not change the caller's document", "statement": "build_pdf leaves the document description passed by the caller unchanged, so building from it again gives the same document.", "quantifier": "every document dict", "why_tests_cant": "Aliasing over all shapes.", "anchors": ["pdfme/document.py:PDFDocument._traverse_document_footnotes", "pdfme/content.py:PDFContentPart.process_text"]}
{"id": "C57", "title": "JPEG fill bytes are tolerated", "statement": "A JPEG whose markers are preceded by fill bytes (0xFF), which the standard allows, gives the same image data as without them.", "quantifier": "every JPEG marker chain and every number of fill bytes", "why_tests_cant": "Optional bytes anywhere in binary input.", "anchors": ["pdfme/image.py:PDFImage.parse_jpg"]}
{"id": "C58", "title": "Count of a closed outline item", "statement": "The Count of an outline item that is written closed is minus the number of items that would show if it were opened, as the PDF standard asks.", "quantifier": "every outline forest and outlines_level", "why_tests_cant": "All forests.", "anchors": ["pdfme/pdf.py:PDF._build_outlines_tree"]}
{"id": "C59", "title": "Underlines, backgrounds and link rectangles lie at the shown text", "statement": "In every run of a paragraph, the background, the underline and the clickable rectangles of a part are drawn once, in order, from where the part starts on its line to where it ends (the sum of the widths before it, with the line's own spacing), at the height of its line and rise, with the part's own colours; parts that show only spaces get none; and the graphics state does not leak into the text that follows.", "quantifier": "every content, style, alignment, width and history of runs, with or without list text", "why_tests_cant": "State elision and accumulated positions over all sequences.", "anchors": ["pdfme/text.py:PDFTextBase.output_graphics", "pdfme/text.py:PDFTextBase.add_line_to_stream", "pdfme/utils.py:get_paragraph_stream"]}
{"id": "C60", "title": "Lines of text do not overlap", "statement": "Every text a paragraph shows lies inside the rectangle it was given: its top is under the top of the rectangle and the line it stands on is over the bottom; and of two texts shown in different lines, the second is wholly under the first.", "quantifier": "every content, sizes, rises, line height, alignment, width, height and history of runs", "why_tests_cant": "Heights of lines with mixed sizes and rises accumulate over all sequences.", "anchors": ["pdfme/text.py:PDFTextLine.height", "pdfme/text.py:PDFTextLine.bottom", "pdfme/text.py:PDFTextBase.add_current_line", "pdfme/text.py:PDFTextBase.add_line_to_stream"]}
{"id": "C61", "title": "The lines of a table are the borders of its cells", "statement": "In every run of a table, the edge of every cell that is shown, and no place inside a cell, has exactly one line when the border defined for that place has a width, and none when it has not; the lines are at the edges of the rows and columns, each looks like the border of every edge it goes along, and its ends are extended by at most half a border where it meets others.", "quantifier": "every table with cells over any rows and columns, borders, widths of columns, rectangle and state between runs", "why_tests_cant": "Merging of equal borders into longer lines and skipping of spanned cells over all tables.", "anchors": ["pdfme/table.py:PDFTable.process_borders", "pdfme/table.py:PDFTable.compare_borders", "pdfme/table.py:PDFTable.add_row", "pdfme/table.py:PDFTable.run"]}
{"id": "C62", "title": "The colours of cells fill their rows and columns", "statement": "In every run of a table, each cell that is shown and has a fill colour is filled exactly once with that colour, in the rectangle of the columns it covers and of the rows it covers that the run added; no other rectangle is filled.", "quantifier": "every table with cells over any rows and columns, fills, widths of columns, rectangle and state between runs", "why_tests_cant": "Fills of cells over several rows are closed rows later or at the end of the run.", "anchors": ["pdfme/table.py:PDFTable.add_row", "pdfme/table.py:PDFTable.add_cell", "pdfme/table.py:PDFTable.run", "pdfme/table.py:PDFTable.is_span"]}
{"id": "C63", "title": "Borders and fills given for ranges of a table are those of the last definition", "statement": "The border (or fill) of each place of a table is that of the last definition of the arguments borders (or fills) whose range has the place, with the border of the table's style for the width, colour or style it does not say; a place in no range has the border of the table's style (or no fill).", "quantifier": "every list of definitions, ranges, sizes of tables and places", "why_tests_cant": "Overlapping ranges and defaults over all lists.", "anchors": ["pdfme/table.py:PDFTable.__init__", "pdfme/table.py:PDFTable.set_default_border", "pdfme/table.py:PDFTable.setup_borders", "pdfme/table.py:PDFTable.get_border", "pdfme/table.py:PDFTable.setup_fills"]}
{"id": "C64", "title": "PDF.text shows the whole paragraph over as many pages as it needs", "statement": "PDF.text(...) shows all the words of the paragraph in order: from the cursor to the bottom margin of the current page and then in new pages at the end of the document, each from its top left margin corner, with the width between the margins; it adds no more pages than it uses, touches no other page, and leaves the cursor at the left margin right under the text.", "quantifier": "every paragraph whose lines are not taller than a page, every document settings, running sections and position of the cursor", "why_tests_cant": "The number of pages and their breaks depend on all of the text; it must end.", "anchors": ["pdfme/pdf.py:PDF.text", "pdfme/pdf.py:PDF._text", "pdfme/pdf.py:PDF._add_text", "pdfme/pdf.py:PDF.add_page"]}
{"id": "C65", "title": "PDF.table and PDF.content show the whole element and leave the cursor under it", "statement": "PDF.table(...) and PDF.content(...) run the element until it is finished, in the rest of the current page and then in new pages at the end of the document between their margins, touch no other page, and leave the cursor right under the element.", "quantifier": "every table or content box, document settings and position of the cursor", "why_tests_cant": "History of pages and of the parts drawn in each.", "anchors": ["pdfme/pdf.py:PDF.table", "pdfme/pdf.py:PDF._table", "pdfme/pdf.py:PDF.content", "pdfme/pdf.py:PDF._content", "pdfme/pdf.py:PDF._add_parts", "pdfme/pdf.py:PDF.add_image"]}
{"id": "C66", "title": "Every element gets its style from the nearest place that gives it", "statement": "Every key of the style with which a paragraph or image is shown has the value given by the nearest of: its own style, its own style string, the elements (boxes, groups, cells, tables) it is in from the inside out, the document's defaults. The margins and fill of a cell come in the same way from the cell, its table and the boxes around, and are 5 and none when nothing is said. A style is always found when the names of styles are known.", "quantifier": "every tree of boxes, groups, tables and paragraphs, every style of each of them, every document settings", "why_tests_cant": "Trees of unbounded depth with any style at any level; order of many updates and removals.", "anchors": ["pdfme/utils.py:process_style", "pdfme/content.py:PDFContentPart.get_element_styles", "pdfme/content.py:PDFContentPart.__init__", "pdfme/table.py:PDFTable.get_cell_style", "pdfme/pdf.py:PDF._default_content_style", "pdfme/pdf.py:PDF._create_table", "pdfme/pdf.py:PDF._create_content", "pdfme/pdf.py:PDF.text"]}
{"id": "C67", "title": "An added image is shown in the rectangle asked for", "statement": "PDF.add_image and PDF.image show the image on the rectangle whose left is x and whose top is y (or the cursor), with the width and height asked for; a side that is not given follows from the other in the proportion of the image, and without both the image is as wide as the contents of the page. Nothing else is painted and the graphics state is restored. The cursor moves to the bottom of the image, or to its right side, or not at all, as asked.", "quantifier": "every image size, page, margins, cursor, position and size arguments, and graphics state of the reader", "why_tests_cant": "All combinations of given and missing arguments, sizes and cursors; the result is what a reader paints.", "anchors": ["pdfme/pdf.py:PDF.add_image", "pdfme/pdf.py:PDF.image", "pdfme/page.py:PDFPage.add_image", "pdfme/page.py:PDFPage.y"]}
{"id": "C68", "title": "Opening an image takes its own bytes and closes what it opened", "statement": "An image opens exactly when its file can be read, its extension (the one given, else what follows the last dot of the path) is jpg, jpeg or png in any case with an optional dot and blanks, and its bytes have the form of that format; then exactly those bytes (for a PNG, what Pillow makes of them) are embedded. A file that was opened is closed in every case, also when an exception is raised; a stream that was given is not closed, and is left at its beginning. A path given as text or as a Path gives the same image, and the position of a stream does not matter.", "quantifier": "every path, stream, position, extension and name argument, contents of files and behaviour of Pillow, every exception", "why_tests_cant": "All failure points between open and close; all spellings of extensions.", "anchors": ["pdfme/image.py:PDFImage.__init__", "pdfme/image.py:PDFImage.parse_jpg", "pdfme/image.py:PDFImage.parse_png", "pdfme/pdf.py:PDF.create_image"]}
{"id": "C69", "title": "Elements of a content box do not lie on each other", "statement": "Of two paragraphs, tables or images that a content box shows in the same run, at any depth of boxes and in any columns, the one placed later is beside the earlier one or wholly below it; also after the columns were balanced.", "quantifier": "every tree of boxes, numbers of columns, gaps, margins, objects inside and sequence of rectangles", "why_tests_cant": "Columns are balanced by running parts of the content again with other bottoms; boxes nest without bound.", "anchors": ["pdfme/content.py:PDFContentPart.run", "pdfme/content.py:PDFContentPart.next_section", "pdfme/content.py:PDFContentPart.process_child", "pdfme/content.py:PDFContentPart.reset", "pdfme/content.py:PDFContentPart.add_element"]}
{"id": "C70", "title": "The file starts with its header and is marked as binary", "statement": "Every file written starts with '%PDF-' and the version given, alone on the first line, and the second line is a comment that holds at least four bytes from 128 on, as the format asks of files with binary data.", "quantifier": "every version, sequence of objects and stream contents", "why_tests_cant": "The mark must be there whatever the streams hold.", "anchors": ["pdfme/base.py:PDFBase.output"]}
{"id": "C71", "title": "A stream is encoded with the filter it declares, or not written at all", "statement": "A stream object that names a filter and is not marked as already encoded is written only if the filter is /FlateDecode, the payload then being compressed; the nine other filters of the PDF reference raise NotImplementedError, any other name raises an Exception and a value that is not a name an AttributeError, and no bytes are produced.", "quantifier": "every stream dictionary, payload, chunking and filter value", "why_tests_cant": "All filter values and payloads; a wrong entry in the list of filters silently writes a stream no reader can decode.", "anchors": ["pdfme/encoders.py:encode_stream", "pdfme/parser.py:parse_stream"]}
{"id": "C72", "title": "White space of a text becomes single spaces between words", "statement": "Any run of white space between two words of a paragraph, also where one styled part ends and the next one begins, becomes exactly one space when the words are on the same line; a line neither begins nor ends with a space.", "quantifier": "every paragraph, parts and styles, widths of words, width and height of the box and alignment", "why_tests_cant": "White space may fall on any border between parts and lines; lines break at any word.", "anchors": ["pdfme/text.py:PDFTextLine.add_word", "pdfme/text.py:PDFTextLine.add_accumulated", "pdfme/text.py:PDFText.add_current_line"]}
{"id": "C73", "title": "The height a content box reports covers what it shows", "statement": "After a run the height that a content box reports reaches down to the lowest paragraph, table or image it showed, also when its columns were balanced, so that what is put below it does not lie on it; when no box has columns it is exactly that height, or zero when nothing was shown.", "quantifier": "every tree of boxes, numbers of columns, gaps, margins, objects inside and sequence of rectangles", "why_tests_cant": "Heights are added up through boxes at any depth and change each time the columns are tried again.", "anchors": ["pdfme/content.py:PDFContent.run", "pdfme/content.py:PDFContentPart.process_child", "pdfme/content.py:PDFContentPart.reset"]}
{"id": "C74", "title": "A table takes no more height than it is given, and no more than its cells need", "statement": "Every row of a table is as high as some cell that ends in it needs, and no higher; when no cell takes more than the room it gets, the rows of a table together are no higher than the height given to it.", "quantifier": "every table, spans, contents of the cells, widths, rectangle and state from an earlier run", "why_tests_cant": "Rows get their heights from cells of earlier rows and of earlier pages.", "anchors": ["pdfme/table.py:PDFTable.add_cell", "pdfme/table.py:PDFTable.add_row", "pdfme/table.py:PDFTable.is_span"]}
{"id": "C75", "title": "Nothing written is lost or shown twice, however it is nested", "statement": "When a content box, a table or a paragraph, with tables in boxes, boxes and tables in cells and so on to any depth, is laid out over as many pages as it takes, every word of every paragraph in it is shown exactly once when it is finished, and before that no word has been shown more often than it is written; in boxes of paragraphs and images the words come in the order in which they are written.", "quantifier": "every depth of nesting, texts, styles, fonts, widths and numbers of columns, margins, borders and sequence of page rectangles", "why_tests_cant": "Page breaks fall inside cells of tables in boxes in cells; each level keeps its own state between pages and passes on that of the levels inside it.", "anchors": ["pdfme/pdf.py:PDF.content", "pdfme/pdf.py:PDF.table", "pdfme/pdf.py:PDF.text", "pdfme/content.py:PDFContentPart.run", "pdfme/content.py:PDFContentPart.process_table", "pdfme/table.py:PDFTable.run", "pdfme/table.py:PDFTable.process_content", "pdfme/table.py:PDFTable.process_table", "pdfme/text.py:PDFText.run"]}
{"id": "C76", "title": "A page shows each thing added to it as an empty page would", "statement": "Paragraphs, graphics and images look the same on a page whatever was added before them: same position, font, size, colours, line styles and spacing as on an empty page; they are drawn in the order in which they were added, and the stream of the page is well formed: saved and restored states match, text operators are inside text objects, paths are painted before anything else, and nothing is open at its end.", "quantifier": "every sequence of paragraphs, lists of fills and lines, and images, with any texts, styles, alignments and positions", "why_tests_cant": "What is written leaves a state behind in the reader; any sequence of things with any styles may come before.", "anchors": ["pdfme/page.py:PDFPage.add", "pdfme/page.py:PDFPage.add_image", "pdfme/pdf.py:PDF._add_text", "pdfme/pdf.py:PDF._add_graphics", "pdfme/utils.py:get_paragraph_stream", "pdfme/utils.py:create_graphics", "pdfme/text.py:PDFText.output_text", "pdfme/text.py:PDFText.output_graphics", "pdfme/parser.py:parse_stream"]}
{"id": "C77", "title": "The text of a list item is shown as given, in the font of the item", "statement": "The text at the left of a list paragraph is shown character by character as it was given: read back from the page it is the codes of exactly these characters in the font that is selected for it, one byte per character in a standard font and the numbers of the glyphs of that same font in an embedded one.", "quantifier": "every list text, list style, style of the paragraph, registered fonts and fonts loaded before", "why_tests_cant": "The text may hold any characters; the font follows from two styles and from what was loaded before.", "anchors": ["pdfme/text.py:PDFText.setup_list", "pdfme/text.py:PDFText.add_current_line", "pdfme/text.py:PDFState", "pdfme/fonts.py:PDFFonts.get_font", "pdfme/fonts.py:PDFTrueTypeFont.encode_text"]}
{"id": "C78", "title": "The text of a page stream reads as the operators that were meant", "statement": "Read by the rules of the format, the bytes of the stream of a page are exactly the operators for the paragraphs, fills, lines and images added, each with its own operands: no two tokens run together, no number has a form the format does not know, no text ends its string early, and there is only one way to read it; so what a reader paints is what was meant.", "quantifier": "every sequence of paragraphs, graphics and images, with any texts, coordinates, sizes, colours and styles, and any numbers, as ints or floats", "why_tests_cant": "Operators are put together from formatted pieces; any number and any text can be a piece.", "anchors": ["pdfme/text.py:PDFText.add_line_to_stream", "pdfme/text.py:PDFText.output_text", "pdfme/text.py:PDFText.output_graphics", "pdfme/text.py:PDFState.compare", "pdfme/utils.py:create_graphics", "pdfme/utils.py:get_paragraph_stream", "pdfme/page.py:PDFPage.add", "pdfme/page.py:PDFPage.add_image", "pdfme/color.py:PDFColor.__str__"]}
{"id": "C79", "title": "The style of a document reaches its sections, running sections and notes", "statement": "In a document built from a description, every key of the style of a paragraph or image of a section has the value said first by: the element, what it is in from the inside out, its section, the style of the document, and else the default (Helvetica, 11, 0.1, left, 1.1, 0). In running sections and notes the style of the document counts for these six keys only, and notes have the format $footnotes before it and their number, from 1, as list text. The margins and fills of cells come in the same way. Names of styles are those given and the two formats of notes, which can be replaced. Whatever style a note has, it is shown.", "quantifier": "every document description: styles, formats, sections, running sections, notes of any depth", "why_tests_cant": "Trees of any depth with styles given at any of the levels.", "anchors": ["pdfme/document.py:PDFDocument.__init__", "pdfme/document.py:PDFDocument._process_section", "pdfme/document.py:PDFDocument._get_footnotes_obj", "pdfme/pdf.py:PDF.__init__"]}
{"id": "C80", "title": "An embedded font is described as its file says, and refused if it must not be embedded", "statement": "The descriptor of an embedded font has its PostScript name, its measures in thousandths of the em (box, ascent, descent, height of capitals), its italic angle, and flags that say whether it is fixed pitch, italic and bold; a font whose licence forbids to embed it raises, and no other font does.", "quantifier": "every font file (any of the optional tables missing, any units per em)", "why_tests_cant": "Every combination of tables and numbers; no file in the tests has them all.", "anchors": ["pdfme/fonts.py:PDFTrueTypeFont._get_font_descriptor", "pdfme/fonts.py:PDFTrueTypeFont.load_font"]}
{"id": "C81", "title": "The footnotes of a page are below its contents and above the bottom margin", "statement": "On every page with footnotes the contents of the section end at least 10 above the first footnote, with a line halfway; the footnotes are those of the marks on the page, all of them, whole, with the numbers from 1, and end above the bottom margin; over the pages of a section the footnotes of all its marks come in the order of the marks. On pages without footnotes the contents end above the bottom margin.", "quantifier": "every section, footnotes, page sizes and margins, over all its pages", "why_tests_cant": "The contents are laid out twice, and the second time fewer or other marks can be on the page than those whose footnotes were measured.", "anchors": ["pdfme/document.py:PDFDocument._add_content", "pdfme/document.py:PDFDocument._process_footnotes", "pdfme/document.py:PDFDocument._get_footnotes_obj", "pdfme/content.py:PDFContent.run"]}
{"id": "C82", "title": "A variable in a paragraph shows the value it has on the page where it is shown", "statement": "A part of a paragraph that names a variable shows the value the context has for it (nothing if it has none) when the paragraph is laid out there: over any rectangles, with any changes of the values between them, the words and variables of the paragraph are shown in order, once each, with the values of the rectangle they are shown in; page numbers are such values.", "quantifier": "every paragraph, list of rectangles and values of the variables in each", "why_tests_cant": "Any change of values at any place where a paragraph is broken.", "anchors": ["pdfme/text.py:PDFTextBase.add_part", "pdfme/pdf.py:PDF.page_index", "pdfme/pdf.py:PDF.get_page_number"]}
{"id": "C83", "title": "What contents show lies within the page, however boxes and tables are nested", "statement": "Every paragraph and image that PDF.text, PDF.table and PDF.content show on a page lies within the rectangle of the page: between its sides, below its top and above its bottom, also those in cells of tables in boxes in cells of tables, and those that go on from an earlier page.", "quantifier": "every content of paragraphs, images, groups, tables and boxes inside one another to any depth, over any list of rectangles", "why_tests_cant": "Positions and sizes are computed again at every level, and after every page break.", "anchors": ["pdfme/content.py:PDFContent.run", "pdfme/content.py:PDFContentPart", "pdfme/table.py:PDFTable.run", "pdfme/table.py:PDFTable.add_cell", "pdfme/text.py:PDFText.run"]}
{"id": "C84", "title": "Documents whose elements fit in a page end, and show everything", "statement": "If every line, every image of a cell and the margins and borders around them fit in the height and width of a page, PDF.text, PDF.table and PDF.content add only a finite number of pages, which depends on what is added and not on the pages, and raise nothing, however paragraphs, tables and boxes are nested; all the words have then been shown, each once.", "quantifier": "all paragraphs, tables and content boxes nested to any depth, all texts, sizes, margins and borders, all widths of characters, any rectangle to begin in and any sequence of pages that are high enough", "why_tests_cant": "Whether the loop that adds pages ends depends on every object in every cell making progress on every page, also those that wait for the next page and go on there; a test of one document shows that one document ends.", "anchors": ["pdfme/pdf.py:PDF._text", "pdfme/pdf.py:PDF._table", "pdfme/pdf.py:PDF._content", "pdfme/table.py:PDFTable.run", "pdfme/content.py:PDFContentPart.run", "pdfme/text.py:PDFText.run"]}
{"id": "C85", "title": "What was put into a document is found again in its file", "statement": "A reader who has only the bytes of the file and starts at its end, through the cross-reference table, the trailer, the catalog and the page tree, finds one page for every page that was added, in order and with its size; in its content stream the texts and images shown on it, in order and at their places, with the images behind their names; its links, with their areas and targets; the fonts of its texts behind their names; every label at the place it was last put on; and the outline with its titles and levels.", "quantifier": "every sequence of pages, texts, images, labels, references, links and outlines, with any texts, places and image objects, and every font registered", "why_tests_cant": "The bytes depend on all the objects of the document and their order; each test reads back one document.", "anchors": ["pdfme/pdf.py:PDF.output", "pdfme/pdf.py:PDF.add_page", "pdfme/page.py:PDFPage.add", "pdfme/page.py:PDFPage.add_image", "pdfme/page.py:PDFPage.add_annot", "pdfme/base.py:PDFBase.output", "pdfme/parser.py:parse_obj", "pdfme/parser.py:parse_stream"]}
{"id": "C86", "title": "The words of contents are found again in the bytes of the file", "statement": "A reader who has only the bytes of the file, finds the pages, decompresses their contents, executes the operators and looks up the fonts in the resources of the page, sees exactly the words of the contents: each word as often as it was written, with the base font, size, rise and colour of its own style, and nothing else; in the order of the contents when there are no tables; and all of them when the contents were finished. The bytes determine the pages and the texts: no other reading is possible.", "quantifier": "every contents of paragraphs, tables, boxes and images inside one another, with any texts, styles, widths of characters and page sizes, broken over any number of pages", "why_tests_cant": "The property runs through every layer at once: breaking of lines, tables and pages, the operators, the fonts, the page objects, compression, the objects and the table of the file. A test compares one file.", "anchors": ["pdfme/text.py:PDFTextBase.run", "pdfme/content.py:PDFContent.run", "pdfme/table.py:PDFTable.run", "pdfme/pdf.py:PDF._add_text", "pdfme/pdf.py:PDF.output", "pdfme/base.py:PDFBase.output", "pdfme/parser.py:parse_stream"]}
{"id": "C87", "title": "Links, references and labels are found in the file at the words that have them", "statement": "In the bytes of the file, the annotations of a page are exactly the links of the words shown on it: one for each link of each part of a line, to the label or the address written in the contents and over the area of that part, and no other; every word of the contents that has a link is in such a part. The names of the file are exactly the labels of the contents, and each leads to the first words that have it in a paragraph with it, on their page.", "quantifier": "every contents of paragraphs, tables, boxes and images inside one another, with any links, references and labels on any texts, broken over any number of lines and pages", "why_tests_cant": "A link that is broken over lines and pages becomes several annotations whose areas depend on the breaking, the alignment and the place of the paragraph; the dictionaries of labels and addresses are shared by all paragraphs. A test looks at one link.", "anchors": ["pdfme/text.py:PDFTextBase.add_line_to_stream", "pdfme/pdf.py:PDF._add_text", "pdfme/page.py:PDFPage.add_annot", "pdfme/page.py:PDFPage.add_reference", "pdfme/page.py:PDFPage.add_link", "pdfme/pdf.py:PDF.output"]}
{"id": "C88", "title": "What is given to the methods of a document is found again in its file", "statement": "When a new document is made by any sequence of calls that add pages, texts, tables and contents, and is written, the file has as many pages as the document, all of its size, and a reader of its bytes sees on them exactly the words of each call, call after call, each in its own font, size, rise and colour, those of a text in their order; each call goes on from the cursor on the current page, over as many whole pages as it needs; every word given with a link has an annotation over it on the page it is shown on; the labels are the names of the file and lead to parts that have them.", "quantifier": "every sequence of calls of add_page, text, table and content whose elements are those of the model, all page sizes and margins, and every way the calls break over pages", "why_tests_cant": "The page breaks depend on the cursor left by all the calls before, and what is drawn is handed over piece by piece.", "anchors": ["pdfme/pdf.py:PDF.text", "pdfme/pdf.py:PDF.table", "pdfme/pdf.py:PDF.content", "pdfme/pdf.py:PDF.add_page", "pdfme/pdf.py:PDF._add_parts", "pdfme/pdf.py:PDF._add_graphics", "pdfme/pdf.py:PDF._add_text", "pdfme/pdf.py:PDF.output"]}
{"id": "C89", "title": "Making a document ends", "statement": "When a page is added to a new document and then any sequence of pages, texts, tables and contents whose elements fit on its pages, every call returns without an exception after a finite number of added pages, and all words of each call have been drawn.", "quantifier": "every sequence of calls of add_page, text, table and content, all page sizes and margins, every position of the cursor between the calls", "why_tests_cant": "Each call begins at the cursor left by the calls before it, so that the place left on the first page can be anything.", "anchors": ["pdfme/pdf.py:PDF.text", "pdfme/pdf.py:PDF.table", "pdfme/pdf.py:PDF.content", "pdfme/pdf.py:PDF.add_page"]}
{"id": "C90", "title": "Everything a document shows lies between the margins of its pages", "statement": "When a new document is made by any sequence of calls that add pages, texts, tables and contents, every visible paragraph and image on every page lies between the left and the right margin of the document and over its bottom margin. What a call shows on the page where it begins lies below the cursor that the calls before it left, and what it shows on the pages it adds lies below the top margin.", "quantifier": "every sequence of calls of add_page, text, table and content, with tables and boxes inside one another to any depth, all page sizes and margins, every position of the cursor between the calls", "why_tests_cant": "The place of an element depends on all the calls before, on the page breaks, and on the widths and margins of all the boxes and tables around it.", "anchors": ["pdfme/pdf.py:PDF.text", "pdfme/pdf.py:PDF.table", "pdfme/pdf.py:PDF.content", "pdfme/pdf.py:PDF.add_page", "pdfme/pdf.py:PDF._position_and_size"]}
{"id": "C91", "title": "What a call shows does not lie on what the calls before it have shown", "statement": "When a new document is made by adding pages, texts, tables and contents, everything visible that the next call shows on the page where it begins is wholly below everything visible that the page already shows, and below the top margin; so all that such a document shows lies between the four margins of its pages.", "quantifier": "every sequence of calls of add_page, text, table and content, with tables and boxes inside one another to any depth, followed by any call of text, table or content; all page sizes and margins, every way the calls break over pages", "why_tests_cant": "The cursor that a call leaves is computed from the heights of the rows, of the cells that go on and of the parts in them, while the parts are placed by other computations; a test looks at one layout.", "anchors": ["pdfme/pdf.py:PDF.text", "pdfme/pdf.py:PDF.table", "pdfme/pdf.py:PDF.content", "pdfme/pdf.py:PDF.add_page", "pdfme/pdf.py:PDF._add_parts", "pdfme/table.py:PDFTable.run"]}
