{
 "claims": [
  {
   "property": "C01",
   "status": "partial",
   "theorems": [
    "C01_embedded_image_round_trip_refuted",
    "C01_embedded_image_round_trip_iff",
    "C01_embedded_image_spurious_bytes"
   ],
   "note": "The statement is false of the code (padding tests use the running index): refuted, with the exact set of lengths for which it holds and what is decoded otherwise."
  },
  {
   "property": "C02",
   "status": "proved",
   "theorems": [
    "C02_base64_payload_shape"
   ],
   "note": ""
  },
  {
   "property": "C03",
   "status": "proved",
   "theorems": [
    "C03_hex_entities_round_trip"
   ],
   "note": ""
  },
  {
   "property": "C04",
   "status": "proved",
   "theorems": [
    "C04_critic_accept",
    "C04_reading_exists",
    "C04_reading_unique",
    "C04_result_unique"
   ],
   "note": "For non-empty text; the empty text is covered by C06."
  },
  {
   "property": "C05",
   "status": "proved",
   "theorems": [
    "C05_critic_reject",
    "C04_reading_exists",
    "C04_reading_unique",
    "C04_result_unique"
   ],
   "note": "For non-empty text."
  },
  {
   "property": "C06",
   "status": "partial",
   "theorems": [
    "C06_critic_memory_partial",
    "C06_critic_memory_refuted"
   ],
   "note": "Holds for every non-empty text; refuted for the empty text (terminator stored into a zero-byte block)."
  },
  {
   "property": "C07",
   "status": "partial",
   "theorems": [
    "C07_critic_markup_partial",
    "C07_critic_markup_refuted"
   ],
   "note": "Refuted in general (edit dropped when it does not fit twice the source length); holds when the complete rendering is shorter than twice the source."
  },
  {
   "property": "C08",
   "status": "partial",
   "theorems": [
    "C08_highlight_lossless_refuted",
    "C08_highlight_lossless_partial",
    "C08_plain_text_unchanged",
    "C08_highlight_converted"
   ],
   "note": "False in general: the result buffer is twice the text, so highlights in short texts lose their end. Proved for every text whose rendered form fits."
  },
  {
   "property": "C09",
   "status": "partial",
   "theorems": [
    "C09_highlight_overread_refuted",
    "C09_highlight_write_refuted",
    "C08_highlight_lossless_partial"
   ],
   "note": "False: read[2] is read past the terminator on every non-empty text not ending in ==, and the terminator can be written out of bounds. Write safety proved when the rendered form fits."
  },
  {
   "property": "C10",
   "status": "proved",
   "theorems": [
    "C10_json_escape"
   ],
   "note": ""
  },
  {
   "property": "C100",
   "status": "partial",
   "theorems": [
    "C100_refuted",
    "C100_partial",
    "C100_word"
   ],
   "note": "Refuted by {.note important}. Proved: reading terminates, reads behind the end only when the list ends with a word without meaning, and does so behind every proper list."
  },
  {
   "property": "C101",
   "status": "partial",
   "theorems": [
    "C101_refuted",
    "C101_partial",
    "C101_sizes"
   ],
   "note": "Refuted: an identifier of 507 bytes loses its closing quote. Proved: the tag text is the specified one exactly when everything fits."
  },
  {
   "property": "C102",
   "status": "partial",
   "theorems": [
    "C102_refuted",
    "C102_partial"
   ],
   "note": "Refuted by a list of 72 bytes. Proved: the exact condition for an overflow."
  },
  {
   "property": "C103",
   "status": "partial",
   "theorems": [
    "C103_refuted",
    "C103_partial"
   ],
   "note": "Refuted: quotation marks are not escaped. Proved: without them the tag determines the attributes."
  },
  {
   "property": "C104",
   "status": "partial",
   "theorems": [
    "C104_refuted",
    "C104_partial"
   ],
   "note": "Refuted: text behind a definition is lost, long lines are cut, definitions in code are taken out. Proved for lines up to 2047 bytes: each is a definition or is kept."
  },
  {
   "property": "C105",
   "status": "partial",
   "theorems": [
    "C105_refuted",
    "C105_partial"
   ],
   "note": "Refuted: a reference with further attributes does not find the definition. Proved for one-word names and nothing else."
  },
  {
   "property": "C106",
   "status": "proved",
   "theorems": [
    "C106"
   ],
   "note": ""
  },
  {
   "property": "C107",
   "status": "partial",
   "theorems": [
    "C107_refuted",
    "C107_partial",
    "C107_marker"
   ],
   "note": "violated: cells of tables, inline HTML and descriptions of pictures are lost; with the MMD dialect text before an unfinished {{TOC is doubled and text beside a marker lost; proved for all trees of the known types without them"
  },
  {
   "property": "C108",
   "status": "partial",
   "theorems": [
    "C108_refuted",
    "C108_partial"
   ],
   "note": "violated for < and &: not escaped; reading back always gives the text, and it is safe exactly when it has neither"
  },
  {
   "property": "C109",
   "status": "partial",
   "theorems": [
    "C109_refuted",
    "C109_partial"
   ],
   "note": "violated for code with backticks or with spaces at both ends; proved for all other code"
  },
  {
   "property": "C11",
   "status": "partial",
   "theorems": [
    "C11_string_round_trip_refuted",
    "C11_string_round_trip_partial"
   ],
   "note": "Violated for control bytes other than newline, carriage return and tab (they come back as question marks); exact characterisation proved."
  },
  {
   "property": "C110",
   "status": "partial",
   "theorems": [
    "C110_refuted",
    "C110_partial",
    "C110_read_once"
   ],
   "note": "violated for every code block: an empty line is added; proved: what is read is the code and one line end exactly when no line of it is a closing fence"
  },
  {
   "property": "C111",
   "status": "partial",
   "theorems": [
    "C111_refuted",
    "C111_partial"
   ],
   "note": "violated by hard line breaks and by blocks of several lines in a quotation; proved for paragraphs with soft breaks"
  },
  {
   "property": "C112",
   "status": "partial",
   "theorems": [
    "C112_refuted",
    "C112_partial"
   ],
   "note": "violated: nothing is indented; numbering proved for items of one paragraph"
  },
  {
   "property": "C113",
   "status": "partial",
   "theorems": [
    "C113_refuted",
    "C113_partial"
   ],
   "note": "violated by spaces and parentheses in addresses and quotation marks in titles; proved without them"
  },
  {
   "property": "C114",
   "status": "partial",
   "theorems": [
    "C114_refuted",
    "C114_partial"
   ],
   "note": "violated for headings of several lines (only the first is read back); proved for all others"
  },
  {
   "property": "C115",
   "status": "partial",
   "theorems": [
    "C115_refuted",
    "C115_partial"
   ],
   "note": "false for HTML blocks, a second definition of a definition list in HTML, blocks of types that are not known (tables); proved for trees of the known types without HTML, comparing all visible bytes except parentheses and stars"
  },
  {
   "property": "C116",
   "status": "proved",
   "theorems": [
    "C116"
   ],
   "note": ""
  },
  {
   "property": "C117",
   "status": "partial",
   "theorems": [
    "C117_refuted",
    "C117_doc_refuted",
    "C117_partial"
   ],
   "note": "false: an ampersand that begins none of five entities, or a < without >, makes the loop run for ever; proved that exactly the other fragments end"
  },
  {
   "property": "C118",
   "status": "partial",
   "theorems": [
    "C118_refuted",
    "C118_partial",
    "C118_fonts"
   ],
   "note": "false for an apostrophe written as entity at the start of a line and for the font of <em>; proved for one term and definition without that entity and without tags that begin with d"
  },
  {
   "property": "C119",
   "status": "partial",
   "theorems": [
    "C119_refuted",
    "C119_partial"
   ],
   "note": "false after a document that ends with a definition list in HTML; proved that documents without HTML blocks leave no trace and that documents that begin with a heading are not affected"
  },
  {
   "property": "C12",
   "status": "proved",
   "theorems": [
    "C12_metadata_lookup",
    "C12_metadata_value"
   ],
   "note": ""
  },
  {
   "property": "C120",
   "status": "partial",
   "theorems": [
    "C120_refuted",
    "C120_partial",
    "C120_first"
   ],
   "note": "false for titles with a quotation mark; proved for all others"
  },
  {
   "property": "C121",
   "status": "partial",
   "theorems": [
    "C121_refuted",
    "C121_partial"
   ],
   "note": "false for definition lists in HTML, which are copied as they are; proved for all other documents, with a style sheet text without < and &"
  },
  {
   "property": "C122",
   "status": "partial",
   "theorems": [
    "C122_refuted",
    "C122_partial",
    "C122_inline"
   ],
   "note": "false for HTML and for blocks of types that are not known; proved for trees of the known types (visible bytes; inside of a line all bytes)"
  },
  {
   "property": "C123",
   "status": "proved",
   "theorems": [
    "C123"
   ],
   "note": "for trees of the known types, as cmark makes them"
  },
  {
   "property": "C124",
   "status": "partial",
   "theorems": [
    "C124_refuted",
    "C124_partial",
    "C124_ids"
   ],
   "note": "false for ids longer than 71 bytes, more than 48 sections, headings that differ in other characters only, labels longer than 71 bytes; proved for all others"
  },
  {
   "property": "C125",
   "status": "partial",
   "theorems": [
    "C125_refuted",
    "C125_partial",
    "C125_words"
   ],
   "note": "false when the paragraph has several lines; proved for paragraphs whose text holds a dash between spaces, and no title option with parentheses"
  },
  {
   "property": "C126",
   "status": "partial",
   "theorems": [
    "C126_refuted",
    "C126_partial",
    "C126_display"
   ],
   "note": "Holds for texts without a dollar sign after two backslashes (and for $$ without guard); refuted otherwise: an escaped backslash hides the closing dollar sign."
  },
  {
   "property": "C127",
   "status": "partial",
   "theorems": [
    "C127_refuted",
    "C127_partial",
    "C127_whole",
    "C127_whole_inline"
   ],
   "note": "No byte is lost in the buffer; shown exactly unless the formula has < or &, which are not escaped."
  },
  {
   "property": "C128",
   "status": "proved",
   "theorems": [
    "C128",
    "C128_unchanged"
   ],
   "note": "Texts of the tree have no line ends (cmark gives them none)."
  },
  {
   "property": "C129",
   "status": "partial",
   "theorems": [
    "C129_refuted",
    "C129_partial",
    "C129_nested"
   ],
   "note": "Holds for titles of up to 900 bytes without < and &; refuted otherwise."
  },
  {
   "property": "C13",
   "status": "partial",
   "theorems": [
    "C13_command_line_lost_refuted",
    "C13_merge_refuted",
    "C13_merge_partial",
    "C13_cli_partial",
    "C13_spelled",
    "C13_missing_source"
   ],
   "note": "False as stated: a missing source ends the merge (command-line metadata is lost when the document has none), spellings that differ in white space and duplicate keys break precedence. Proved when no source is missing and each source names the key at most once with one spelling; for keys spelled alike up to case without any restriction on duplicates."
  },
  {
   "property": "C130",
   "status": "partial",
   "theorems": [
    "C130_refuted",
    "C130_partial"
   ],
   "note": "Holds when no callout stands within another and titles fit and are no HTML; refuted for nested callouts."
  },
  {
   "property": "C131",
   "status": "partial",
   "theorems": [
    "C131_refuted",
    "C131_partial"
   ],
   "note": "Holds when the first line is plain text; refuted for marked-up titles."
  },
  {
   "property": "C132",
   "status": "proved",
   "theorems": [
    "C132",
    "C132_unique",
    "C132_says_unique"
   ],
   "note": "For trees whose texts have no children, as cmark makes them."
  },
  {
   "property": "C133",
   "status": "partial",
   "theorems": [
    "C133_refuted",
    "C133_partial"
   ],
   "note": "Refuted for [[#Section]] and [[Page|]]; the guard is exact (an equivalence)."
  },
  {
   "property": "C134",
   "status": "proved",
   "theorems": [
    "C134",
    "C134_stable",
    "C134_spelling",
    "C134_letters"
   ],
   "note": ""
  },
  {
   "property": "C135",
   "status": "proved",
   "theorems": [
    "C135"
   ],
   "note": ""
  },
  {
   "property": "C136",
   "status": "partial",
   "theorems": [
    "C136_refuted",
    "C136_partial"
   ],
   "note": "Holds when the texts of links have no [[; refuted otherwise."
  },
  {
   "property": "C137",
   "status": "partial",
   "theorems": [
    "C137_refuted",
    "C137_partial"
   ],
   "note": "Holds exactly for titles that are their own id; the section is copied without making an id of it."
  },
  {
   "property": "C138",
   "status": "partial",
   "theorems": [
    "C138_refuted",
    "C138_refuted_crlf",
    "C138_partial",
    "C138_records"
   ],
   "note": "a pipe in a cell, or CR NL line ends, break the table; all other data read back"
  },
  {
   "property": "C139",
   "status": "proved",
   "theorems": [
    "C139",
    "C139_null"
   ],
   "note": "exact text of the table for every text"
  },
  {
   "property": "C14",
   "status": "proved",
   "theorems": [
    "C14_plugin_order",
    "C14_discovery_order"
   ],
   "note": "The lists built from any sequence of discovered plugins are in order of priority and id and hold exactly the first usable plugin of every id and phase."
  },
  {
   "property": "C140",
   "status": "partial",
   "theorems": [
    "C140_refuted",
    "C140_partial"
   ],
   "note": "a record longer than the header loses cells; others are kept whole"
  },
  {
   "property": "C141",
   "status": "partial",
   "theorems": [
    "C141_refuted",
    "C141_refuted_header",
    "C141_exact_partial",
    "C141_partial"
   ],
   "note": "heap overrun by twelve empty cells or a header of 28 columns; exact condition given"
  },
  {
   "property": "C142",
   "status": "proved",
   "theorems": [
    "C142",
    "C142_unique",
    "C142_ends"
   ],
   "note": "declarative reading of the document, proved unique"
  },
  {
   "property": "C143",
   "status": "proved",
   "theorems": [
    "C143"
   ],
   "note": ""
  },
  {
   "property": "C144",
   "status": "partial",
   "theorems": [
    "C144_refuted",
    "C144_partial"
   ],
   "note": "a marker in a ~~~ block is converted and the closing fence swallowed; backtick blocks are kept"
  },
  {
   "property": "C145",
   "status": "partial",
   "theorems": [
    "C145_refuted",
    "C145_partial"
   ],
   "note": "a tab on a blank line makes the block TSV; otherwise as the guide says"
  },
  {
   "property": "C146",
   "status": "proved",
   "theorems": [
    "C146",
    "C146_some"
   ],
   "note": ""
  },
  {
   "property": "C147",
   "status": "partial",
   "theorems": [
    "C147_refuted",
    "C147_partial",
    "C147_markers_partial"
   ],
   "note": "18 bytes make it write one byte beyond the buffer; never when the result is at most three times the document or when all tables come from markers"
  },
  {
   "property": "C148",
   "status": "partial",
   "theorems": [
    "C148_refuted",
    "C148_partial"
   ],
   "note": "Refuted: the last line is lost when the file has no final newline and M is past it, and a long prefix makes later lines vanish. Proved for at most 924 bytes of prefixes, with the exact condition on the last line."
  },
  {
   "property": "C149",
   "status": "partial",
   "theorems": [
    "C149_refuted",
    "C149_partial"
   ],
   "note": "Refuted for every file: [N] includes nothing. Proved: [N,N+1] includes line N."
  },
  {
   "property": "C15",
   "status": "partial",
   "theorems": [
    "C15_shift_refuted",
    "C15_shift_partial"
   ],
   "note": "False: from depth 2 on the in-place pass overruns the block whenever some line starts with #. Exact: right at depths 0 and 1 and without headings, an access outside the block in all other cases."
  },
  {
   "property": "C150",
   "status": "partial",
   "theorems": [
    "C150_refuted",
    "C150_partial"
   ],
   "note": "Refuted: the last line is lost when the file has no final newline. Proved otherwise, with the exact condition."
  },
  {
   "property": "C151",
   "status": "proved",
   "theorems": [
    "C151_memory"
   ],
   "note": ""
  },
  {
   "property": "C152",
   "status": "partial",
   "theorems": [
    "C152_refuted",
    "C152_partial"
   ],
   "note": "Refuted: empty lines get no prefix. The exact result is proved."
  },
  {
   "property": "C153",
   "status": "partial",
   "theorems": [
    "C153_refuted",
    "C153_partial"
   ],
   "note": "Refuted: extract_lines calls itself for ever when no pattern compiles and there is a prefix. Exact condition proved."
  },
  {
   "property": "C154",
   "status": "partial",
   "theorems": [
    "C154_refuted",
    "C154_partial"
   ],
   "note": "Refuted: without a match of B the last line is lost if the file has no final newline. Exact result proved for at most 924 bytes of prefixes."
  },
  {
   "property": "C155",
   "status": "partial",
   "theorems": [
    "C155_refuted",
    "C155_partial",
    "C155_names"
   ],
   "note": "A stray backtick turns includes off up to the next one. Documents of plain text, one-backtick spans and includes (any nesting to ten levels) are expanded as a separate relation says; C155_names settles the paths, folders, kinds and languages it uses."
  },
  {
   "property": "C156",
   "status": "partial",
   "theorems": [
    "C156_refuted",
    "C156_partial"
   ],
   "note": "A backtick inside a block, or a span of two backticks, lets includes through. Blocks without backticks inside stay; the fence gets an odd length."
  },
  {
   "property": "C157",
   "status": "partial",
   "theorems": [
    "C157_refuted",
    "C157_partial"
   ],
   "note": "An opening fence of four backticks becomes five, also where the closing fence, indented by one space, stays four and so no longer closes. Without such a fence the document is unchanged."
  },
  {
   "property": "C158",
   "status": "partial",
   "theorems": [
    "C158_refuted",
    "C158_partial"
   ],
   "note": "<<[file] of a missing file vanishes, for every file; {{file}} and /file stay."
  },
  {
   "property": "C159",
   "status": "partial",
   "theorems": [
    "C159_refuted",
    "C159_partial"
   ],
   "note": "White space, also blank lines, is skipped in search of an address, so the text of a link that begins the next paragraph is lost. Kept if the next thing is no bracket."
  },
  {
   "property": "C16",
   "status": "proved",
   "theorems": [
    "C16_tag_spacing",
    "C16_every_html",
    "C16_idempotent",
    "C16_visible"
   ],
   "note": "Exact result for every html; decomposition theorem shows the domain is everything."
  },
  {
   "property": "C160",
   "status": "partial",
   "theorems": [
    "C160_refuted",
    "C160_partial"
   ],
   "note": "A relative base is applied twice (d/sub/sub), proved for every file. None, absolute or \".\" are right."
  },
  {
   "property": "C161",
   "status": "partial",
   "theorems": [
    "C161_refuted",
    "C161_partial"
   ],
   "note": "The list of extensions is dead code: every name with a wildcard is what glob lists first."
  },
  {
   "property": "C162",
   "status": "partial",
   "theorems": [
    "C162_refuted",
    "C162_partial"
   ],
   "note": "The terminating NUL is stored one past the end once the buffer is full. Safe without readable files and for all documents of C155."
  },
  {
   "property": "C163",
   "status": "partial",
   "theorems": [
    "C163_refuted",
    "C163_partial"
   ],
   "note": "Ends for every disk whose patterns compile, and always within the depth and length of the text otherwise; the exception is that of C153."
  },
  {
   "property": "C164",
   "status": "partial",
   "theorems": [
    "C164_refuted",
    "C164_partial"
   ],
   "note": "A line in the file that closes the fence ends the block. Otherwise the block is the file and one more newline."
  },
  {
   "property": "C165",
   "status": "partial",
   "theorems": [
    "C165_refuted"
   ],
   "note": "For every file the result is a comment with the path; nothing in the code replaces it. There is no positive case."
  },
  {
   "property": "C166",
   "status": "partial",
   "theorems": [
    "C166_refuted"
   ],
   "note": "The header is copied into the document, for every file."
  },
  {
   "property": "C167",
   "status": "partial",
   "theorems": [
    "C167_refuted",
    "C167_partial",
    "C167_reading",
    "C167_unique"
   ],
   "note": "violated: any unknown word between colons becomes a near name; exact reading proved"
  },
  {
   "property": "C168",
   "status": "partial",
   "theorems": [
    "C168_refuted",
    "C168_partial"
   ],
   "note": "violated for names with a dash; proved for names that are their own normal form"
  },
  {
   "property": "C169",
   "status": "proved",
   "theorems": [
    "C169_distance"
   ],
   "note": ""
  },
  {
   "property": "C17",
   "status": "partial",
   "theorems": [
    "C17_collapse_refuted",
    "C17_collapse_partial",
    "C17_every_end",
    "C17_visible"
   ],
   "note": "The function reads past the terminator exactly when the html ends in an odd run of '>'; otherwise exact."
  },
  {
   "property": "C170",
   "status": "proved",
   "theorems": [
    "C170_nearest",
    "C170_longest"
   ],
   "note": ""
  },
  {
   "property": "C171",
   "status": "partial",
   "theorems": [
    "C171_refuted",
    "C171_partial"
   ],
   "note": "violated by exactly the empty text"
  },
  {
   "property": "C172",
   "status": "proved",
   "theorems": [
    "C172_safe"
   ],
   "note": ""
  },
  {
   "property": "C173",
   "status": "partial",
   "theorems": [
    "C173_refuted",
    "C173_partial",
    "C173_names"
   ],
   "note": "violated when the result needs more than 2n+15 bytes; proved otherwise, and for all texts with names of more than one byte"
  },
  {
   "property": "C174",
   "status": "proved",
   "theorems": [
    "C174_no_colon"
   ],
   "note": ""
  },
  {
   "property": "C175",
   "status": "partial",
   "theorems": [
    "C175_refuted",
    "C175_partial"
   ],
   "note": "violated as stated; exact reading proved for HTML whose colons are in text"
  },
  {
   "property": "C176",
   "status": "partial",
   "theorems": [
    "C176_refuted",
    "C176_partial"
   ],
   "note": "violated for values with an equals sign or bracket; proved for plain quoted values"
  },
  {
   "property": "C177",
   "status": "partial",
   "theorems": [
    "C177_refuted",
    "C177_partial"
   ],
   "note": "violated in three ways; proved without img tags and image names"
  },
  {
   "property": "C178",
   "status": "partial",
   "theorems": [
    "C178_refuted",
    "C178_partial"
   ],
   "note": "violated for short documents and in headers; exact condition proved for one name"
  },
  {
   "property": "C179",
   "status": "partial",
   "theorems": [
    "C179_refuted",
    "C179_partial"
   ],
   "note": "violated when an end tag exactly fits; for all documents with shorter HTML the output is the one the grammar of lines gives"
  },
  {
   "property": "C18",
   "status": "proved",
   "theorems": [
    "C18_blank_lines",
    "C18_determined"
   ],
   "note": ""
  },
  {
   "property": "C180",
   "status": "partial",
   "theorems": [
    "C180_refuted",
    "C180_partial"
   ],
   "note": "violated for certain lengths; holds below twice the text"
  },
  {
   "property": "C181",
   "status": "partial",
   "theorems": [
    "C181_refuted",
    "C181_partial"
   ],
   "note": "violated for ids of 250 bytes and unclosed braces"
  },
  {
   "property": "C182",
   "status": "proved",
   "theorems": [
    "C182_plain"
   ],
   "note": ""
  },
  {
   "property": "C183",
   "status": "partial",
   "theorems": [
    "C183_refuted"
   ],
   "note": "violated; what stays is C182"
  },
  {
   "property": "C184",
   "status": "proved",
   "theorems": [
    "C184_plain"
   ],
   "note": ""
  },
  {
   "property": "C185",
   "status": "partial",
   "theorems": [
    "C185_refuted",
    "C185_partial"
   ],
   "note": "violated for nested custom elements; proved for all others with names of up to 33 bytes"
  },
  {
   "property": "C186",
   "status": "partial",
   "theorems": [
    "C186_refuted",
    "C186_partial"
   ],
   "note": "violated for names of 128 or more bytes"
  },
  {
   "property": "C187",
   "status": "partial",
   "theorems": [
    "C187_refuted",
    "C187_partial"
   ],
   "note": "violated for long names; holds for names of up to 33 bytes"
  },
  {
   "property": "C188",
   "status": "partial",
   "theorems": [
    "C188_refuted",
    "C188_partial"
   ],
   "note": "violated when the result does not fit four times the text"
  },
  {
   "property": "C189",
   "status": "proved",
   "theorems": [
    "C189_exact"
   ],
   "note": ""
  },
  {
   "property": "C19",
   "status": "proved",
   "theorems": [
    "C19_heading_levels",
    "C19_other_levels",
    "C19_every_html",
    "C19_nested"
   ],
   "note": ""
  },
  {
   "property": "C190",
   "status": "partial",
   "theorems": [
    "C190_refuted",
    "C190_partial"
   ],
   "note": "violated four ways; holds without page breaks"
  },
  {
   "property": "C191",
   "status": "partial",
   "theorems": [
    "C191_refuted",
    "C191_partial"
   ],
   "note": "violated with blanks at the front of the document"
  },
  {
   "property": "C192",
   "status": "partial",
   "theorems": [
    "C192_refuted"
   ],
   "note": "violated for every text"
  },
  {
   "property": "C193",
   "status": "partial",
   "theorems": [
    "C193_refuted"
   ],
   "note": "violated; what stays is C194"
  },
  {
   "property": "C194",
   "status": "proved",
   "theorems": [
    "C194_plain"
   ],
   "note": ""
  },
  {
   "property": "C195",
   "status": "partial",
   "theorems": [
    "C195_refuted",
    "C195_partial"
   ],
   "note": "refuted: twelve emphasised letters in a b element do not fit twice the input and the content is left out without notice; proved when the result is shorter than twice the input (at every level)"
  },
  {
   "property": "C196",
   "status": "partial",
   "theorems": [
    "C196_refuted",
    "C196_partial"
   ],
   "note": "refuted: the empty text (a buffer of no bytes), a list of nine items in a div (the newline takes the last byte and the NUL is stored behind the buffer), a start tag of 2047 bytes; proved for documents whose result is shorter than twice the input"
  },
  {
   "property": "C197",
   "status": "partial",
   "theorems": [
    "C197_refuted",
    "C197_partial"
   ],
   "note": "refuted: an empty element keeps the attribute; attributes between the name and the first space are lost when the name is followed by a newline; proved for attributes separated by single spaces and nonempty content"
  },
  {
   "property": "C198",
   "status": "proved",
   "theorems": [
    "C198_unmarked"
   ],
   "note": ""
  },
  {
   "property": "C199",
   "status": "partial",
   "theorems": [
    "C199_refuted",
    "C198_unmarked"
   ],
   "note": "refuted: a title with markdown=1 in its text; such a tag loses part of its title; proved (C198) when no tag has markdown= anywhere"
  },
  {
   "property": "C20",
   "status": "partial",
   "theorems": [
    "C20_index_refuted",
    "C20_index_kept_refuted",
    "C20_empty_refuted",
    "C20_page_break_refuted",
    "C20_markers_partial",
    "C20_every_text",
    "C20_without_page_breaks_partial",
    "C20_unchanged_partial"
   ],
   "note": "Refuted four ways: {index} at the end over-reads, {index} elsewhere is ignored, the empty text and short texts with page breaks overrun the block (the latter lose text). Exact when the result is shorter than four times the text."
  },
  {
   "property": "C200",
   "status": "proved",
   "theorems": [
    "C200_literal"
   ],
   "note": ""
  },
  {
   "property": "C201",
   "status": "partial",
   "theorems": [
    "C201_refuted"
   ],
   "note": "refuted for every inline element: the exact result has a newline behind the end tag"
  },
  {
   "property": "C202",
   "status": "partial",
   "theorems": [
    "C202_refuted"
   ],
   "note": "refuted for every text in front of the element"
  },
  {
   "property": "C203",
   "status": "proved",
   "theorems": [
    "C203_rules",
    "C203_unique"
   ],
   "note": "exact result by an inductive relation"
  },
  {
   "property": "C204",
   "status": "partial",
   "theorems": [
    "C204_refuted",
    "C203_rules"
   ],
   "note": "false: the first > ends the tag, and <hr-group> is taken for a rule; C203_rules says exactly what is replaced"
  },
  {
   "property": "C205",
   "status": "partial",
   "theorems": [
    "C205_refuted",
    "C205_exact",
    "C205_partial"
   ],
   "note": "false: a language class anywhere behind the block suppresses the class, and a block with a class gets a second attribute; exact result, and the claim for texts without language-"
  },
  {
   "property": "C206",
   "status": "proved",
   "theorems": [
    "C206_cleaned",
    "C206_unique"
   ],
   "note": "exact result by an inductive relation"
  },
  {
   "property": "C207",
   "status": "partial",
   "theorems": [
    "C207_refuted",
    "C206_cleaned"
   ],
   "note": "false: <p></p> and paragraphs with attributes stay; C206_cleaned says exactly which are removed"
  },
  {
   "property": "C208",
   "status": "proved",
   "theorems": [
    "C208_title"
   ],
   "note": ""
  },
  {
   "property": "C209",
   "status": "proved",
   "theorems": [
    "C209_none",
    "C209_first"
   ],
   "note": ""
  },
  {
   "property": "C21",
   "status": "partial",
   "theorems": [
    "C21_gfm_partial",
    "C21_every_text",
    "C21_gfm_shape",
    "C21_gfm_bytes",
    "C21_memory_refuted",
    "C21_cut_off_refuted",
    "C21_mmd_partial",
    "C21_kramdown_partial"
   ],
   "note": "GFM content proved for every text and every emoji table; the memory claim is refuted (a 6-byte heading whose emoji name is long overruns the block) and holds when the pieces need at most three bytes per byte of text. MMD and Kramdown: exact for every text of ASCII bytes and complete sequences; a text cut off inside a sequence makes both read behind the terminator (refuted for all such texts)."
  },
  {
   "property": "C210",
   "status": "proved",
   "theorems": [
    "C210_prefix"
   ],
   "note": ""
  },
  {
   "property": "C211",
   "status": "partial",
   "theorems": [
    "C211_refuted",
    "C211_upper_half"
   ],
   "note": "false: only the upper half of the 64 bit hash is kept, so documents that differ in a few bytes near their end share the prefix; the upper half alone decides"
  },
  {
   "property": "C212",
   "status": "partial",
   "theorems": [
    "C212_refuted",
    "C212_partial",
    "C212_unique"
   ],
   "note": "false when the text ends in a key (write behind the buffer); proved for all other texts"
  },
  {
   "property": "C213",
   "status": "proved",
   "theorems": [
    "C213_links"
   ],
   "note": ""
  },
  {
   "property": "C214",
   "status": "proved",
   "theorems": [
    "C214_hashed",
    "C214_unique"
   ],
   "note": "exact result, line by line"
  },
  {
   "property": "C215",
   "status": "partial",
   "theorems": [
    "C215_refuted",
    "C215_partial"
   ],
   "note": "false for fenced blocks and code spans; proved for lines indented by four spaces or a tab"
  },
  {
   "property": "C216",
   "status": "partial",
   "theorems": [
    "C216_refuted",
    "C214_hashed"
   ],
   "note": "false: lines of nested lists count as code, and a tab does not end a tag; C214_hashed says exactly what is found"
  },
  {
   "property": "C217",
   "status": "partial",
   "theorems": [
    "C217_refuted",
    "C214_hashed"
   ],
   "note": "false: < does not end a tag; C214_hashed says exactly what is wrapped"
  },
  {
   "property": "C218",
   "status": "proved",
   "theorems": [
    "C218_plain"
   ],
   "note": ""
  },
  {
   "property": "C219",
   "status": "partial",
   "theorems": [
    "C219_refuted",
    "C219_exact",
    "C219_unique",
    "C219_partial"
   ],
   "note": "false: the NUL is stored behind the buffer when the copied bytes fill it; proved when the result has at most twice the length; the bytes are exact in all cases"
  },
  {
   "property": "C22",
   "status": "partial",
   "theorems": [
    "C22_buffer_partial",
    "C22_after_release_refuted",
    "C22_hang_refuted"
   ],
   "note": "Refinement of the block-level model to strings for every history in which nothing is appended after free or detach; such an append never returns (refuted for every such history)."
  },
  {
   "property": "C220",
   "status": "partial",
   "theorems": [
    "C220_refuted",
    "C220_partial"
   ],
   "note": "false with tags in the heading (the position is counted with the tags, then without) and with newlines; proved for headings without tags"
  },
  {
   "property": "C221",
   "status": "partial",
   "theorems": [
    "C221_refuted",
    "C219_exact"
   ],
   "note": "false: the words are joined until they have more than ten bytes; C219_exact says exactly which"
  },
  {
   "property": "C222",
   "status": "proved",
   "theorems": [
    "C222_none"
   ],
   "note": ""
  },
  {
   "property": "C223",
   "status": "proved",
   "theorems": [
    "C223_document"
   ],
   "note": "the whole function; malloc succeeds and lengths are below INT_MAX"
  },
  {
   "property": "C224",
   "status": "partial",
   "theorems": [
    "C224_refuted",
    "C224_partial"
   ],
   "note": "refuted for every such content: the backward search stops at the y of </body>; C224_partial: content without </html> is there once"
  },
  {
   "property": "C225",
   "status": "partial",
   "theorems": [
    "C225_refuted",
    "C225_partial"
   ],
   "note": "the values are written as they are; C225_partial gives the exact conditions"
  },
  {
   "property": "C226",
   "status": "partial",
   "theorems": [
    "C226_refuted",
    "C226_partial"
   ],
   "note": "memcpy keeps 100%%, in every document without style sheets; with style sheets there is no percent sign"
  },
  {
   "property": "C227",
   "status": "proved",
   "theorems": [
    "C227_standalone",
    "C227_fragment"
   ],
   "note": "both modes, exactly"
  },
  {
   "property": "C228",
   "status": "partial",
   "theorems": [
    "C228_refuted",
    "C228_partial"
   ],
   "note": "use after free for a style sheet of the metadata; proved for distinct style sheets of the options with plain paths, title and language without <"
  },
  {
   "property": "C229",
   "status": "partial",
   "theorems": [
    "C229_refuted",
    "C229_partial"
   ],
   "note": "an empty array is freed although it belongs to the caller; C229_partial is the exact condition"
  },
  {
   "property": "C23",
   "status": "proved",
   "theorems": [
    "C23_framed",
    "C23_wellformed",
    "C23_lengths",
    "C23_ill_formed_refuted"
   ],
   "note": "Exactly the framed texts are accepted, in particular all well-formed UTF-8; overlong forms etc. are accepted too (shown by C23_ill_formed_refuted)."
  },
  {
   "property": "C230",
   "status": "proved",
   "theorems": [
    "C230_title"
   ],
   "note": "with the first heading of C209"
  },
  {
   "property": "C231",
   "status": "proved",
   "theorems": [
    "C231_lines",
    "C231_suffix"
   ],
   "note": "All texts; line starts for the parsers of the program, suffix for every library."
  },
  {
   "property": "C232",
   "status": "proved",
   "theorems": [
    "C232_block",
    "C232_text"
   ],
   "note": "For plain pairs as defined in S_Front."
  },
  {
   "property": "C233",
   "status": "partial",
   "theorems": [
    "C233_heading_refuted",
    "C233_tail_refuted",
    "C233_partial"
   ],
   "note": "False: a heading before the block and an unterminated last line after it are deleted. True for texts with a plain first line and a final newline."
  },
  {
   "property": "C234",
   "status": "partial",
   "theorems": [
    "C234_refuted",
    "C234_partial"
   ],
   "note": "False of every line over 1023 bytes; exact up to there."
  },
  {
   "property": "C235",
   "status": "partial",
   "theorems": [
    "C235_refuted",
    "C235_partial"
   ],
   "note": "False of every key of seven bytes or more; true of shorter keys."
  },
  {
   "property": "C236",
   "status": "partial",
   "theorems": [
    "C236_closed",
    "C236_refuted"
   ],
   "note": "Closed blocks exact; unclosed blocks give items and stay in the text."
  },
  {
   "property": "C237",
   "status": "partial",
   "theorems": [
    "C237_partial",
    "C237_refuted"
   ],
   "note": "True of blocks closed by ---; false of blocks closed by ... before a later ---."
  },
  {
   "property": "C238",
   "status": "proved",
   "theorems": [
    "C238_title_block"
   ],
   "note": "For title lines as defined in S_Front."
  },
  {
   "property": "C239",
   "status": "partial",
   "theorems": [
    "C239_buffer",
    "C239_partial",
    "C239_refuted"
   ],
   "note": "Buffer for all metadata; round trip for simple items; single quotes are lost."
  },
  {
   "property": "C24",
   "status": "proved",
   "theorems": [
    "C24_escape",
    "C24_injective"
   ],
   "note": ""
  },
  {
   "property": "C240",
   "status": "proved",
   "theorems": [
    "C240_code"
   ],
   "note": "All code, with the escaping of the renderer."
  },
  {
   "property": "C241",
   "status": "partial",
   "theorems": [
    "C241_painted",
    "C241_partial",
    "C241_refuted"
   ],
   "note": "True when the program succeeds on every block, or writes less than twice the document and 1024 bytes; a block that stays can be lost otherwise."
  },
  {
   "property": "C242",
   "status": "partial",
   "theorems": [
    "C242_refuted",
    "C242_partial"
   ],
   "note": "One NUL beyond the buffer when a block that stays fills it exactly; safe under the conditions of C241."
  },
  {
   "property": "C243",
   "status": "partial",
   "theorems": [
    "C243_refuted",
    "C243_partial"
   ],
   "note": "False: the language a;b runs the program b. True of languages of letters, digits and + - _ . /"
  },
  {
   "property": "C244",
   "status": "proved",
   "theorems": [
    "C244_output"
   ],
   "note": "All sequences of reads of at most 4096 bytes."
  },
  {
   "property": "C245",
   "status": "partial",
   "theorems": [
    "C245_partial",
    "C245_ends",
    "C245_eager_partial",
    "C245_refuted"
   ],
   "note": "True of programs that read all input first; a program that answers as it reads is stuck from 2K+2 bytes on, K the size of a pipe."
  },
  {
   "property": "C246",
   "status": "proved",
   "theorems": [
    "C246_marks"
   ],
   "note": "buffer of M_Index with every write checked"
  },
  {
   "property": "C247",
   "status": "proved",
   "theorems": [
    "C247_forms"
   ],
   "note": "all three syntaxes on"
  },
  {
   "property": "C248",
   "status": "partial",
   "theorems": [
    "C248_refuted",
    "C248_partial"
   ],
   "note": "refuted: (!name) in a fence is replaced; partial: no opener, no change"
  },
  {
   "property": "C249",
   "status": "partial",
   "theorems": [
    "C249_refuted",
    "C249_partial"
   ],
   "note": "refuted by three texts; partial: never empty and no space behind, without Leanpub syntax"
  },
  {
   "property": "C25",
   "status": "partial",
   "theorems": [
    "C25_modes",
    "C25_unknown",
    "C25_default",
    "C25_unsafe",
    "C25_strict",
    "C25_extensions",
    "C25_tagfilter",
    "C25_autolink_refuted"
   ],
   "note": "Whole option records of all modes, out-of-range numbers included, against a table of features; strict modes never pass raw HTML. Refuted in one point: MultiMarkdown and Kramdown set the autolink option but never attach the extension."
  },
  {
   "property": "C250",
   "status": "partial",
   "theorems": [
    "C250_refuted",
    "C250_partial",
    "C250_bracket_partial"
   ],
   "note": "refuted for every pair of words; partial: word behind punctuation, bracketed term"
  },
  {
   "property": "C251",
   "status": "partial",
   "theorems": [
    "C251_refuted",
    "C251_partial"
   ],
   "note": "refuted: unfinished mark, empty HTML; safe exactly otherwise"
  },
  {
   "property": "C252",
   "status": "partial",
   "theorems": [
    "C252_refuted",
    "C252_partial"
   ],
   "note": "refuted: comment that begins like a mark; true when <!--IDX: begins only marks"
  },
  {
   "property": "C253",
   "status": "proved",
   "theorems": [
    "C253_links"
   ],
   "note": "names shorter than 64 bytes, which holds for numbers of up to 56 digits"
  },
  {
   "property": "C254",
   "status": "proved",
   "theorems": [
    "C254_order"
   ],
   "note": ""
  },
  {
   "property": "C255",
   "status": "partial",
   "theorems": [
    "C255_refuted",
    "C255_partial"
   ],
   "note": "refuted: unescaped, cut, leading space; exact for fair terms, whatever way qsort sorts"
  },
  {
   "property": "C256",
   "status": "partial",
   "theorems": [
    "C256_refuted",
    "C256_partial"
   ],
   "note": "refuted: items that begin with punctuation; exact for items that begin with a letter or digit"
  },
  {
   "property": "C257",
   "status": "proved",
   "theorems": [
    "C257_place"
   ],
   "note": ""
  },
  {
   "property": "C258",
   "status": "proved",
   "theorems": [
    "C258_safe"
   ],
   "note": "Every write is checked in the model; holds for every text."
  },
  {
   "property": "C259",
   "status": "partial",
   "theorems": [
    "C259_refuted",
    "C259_partial"
   ],
   "note": "False: a single row before an empty line moves behind it when the document changes elsewhere (for all such documents), and an empty line can be lost. Proved: exact result when no row stands alone before a blank line and no table ends at twice the length."
  },
  {
   "property": "C26",
   "status": "proved",
   "theorems": [
    "C26_handed_over",
    "C26_closed",
    "C26_unique"
   ],
   "note": "For every library of steps the preprocessing succeeds and the text handed over is the last step's text, closed by one newline exactly when it did not end in NL or CR."
  },
  {
   "property": "C260",
   "status": "partial",
   "theorems": [
    "C260_refuted",
    "C260_partial"
   ],
   "note": "False for every two rows with equally many columns around an empty line. Proved: documents without such rows are unchanged."
  },
  {
   "property": "C261",
   "status": "partial",
   "theorems": [
    "C261_refuted",
    "C261_partial"
   ],
   "note": "False for every table with two rows of data. Proved for a table with one."
  },
  {
   "property": "C262",
   "status": "partial",
   "theorems": [
    "C262_refuted",
    "C262_partial"
   ],
   "note": "False for every two rows with equally many columns in a fence. Proved for texts with bars in one line only."
  },
  {
   "property": "C263",
   "status": "partial",
   "theorems": [
    "C263_refuted",
    "C263_partial"
   ],
   "note": "Proved: exactly when the row has bars at both ends or at neither (no backslashes in the row)."
  },
  {
   "property": "C264",
   "status": "proved",
   "theorems": [
    "C264_safe"
   ],
   "note": "Every write is checked in the model; holds for every text."
  },
  {
   "property": "C265",
   "status": "partial",
   "theorems": [
    "C265_refuted",
    "C265_partial"
   ],
   "note": "False when the result exactly fills the buffer. Proved: the result exists, is unique and is what the pass gives unless it is 2, 4, 8, ... times as long as the document."
  },
  {
   "property": "C266",
   "status": "partial",
   "theorems": [
    "C266_refuted",
    "C266_partial"
   ],
   "note": "Proved: exactly when the separator ends with a bar."
  },
  {
   "property": "C267",
   "status": "partial",
   "theorems": [
    "C267_refuted",
    "C267_partial"
   ],
   "note": "Refuted: the empty text, many short lists, a line that starts with a long number. Proved when no line starts with more than nine digits and the result is shorter than three times the text."
  },
  {
   "property": "C268",
   "status": "proved",
   "theorems": [
    "C268_kept"
   ],
   "note": "Every text that is not empty and has no item."
  },
  {
   "property": "C269",
   "status": "partial",
   "theorems": [
    "C269_refuted",
    "C269_partial"
   ],
   "note": "Refuted universally for texts of one item with one to five bytes behind the dot: no room for the sign. Proved: the exact result whenever it is shorter than three times the text."
  },
  {
   "property": "C27",
   "status": "partial",
   "theorems": [
    "C27_refuted",
    "C27_embed_refuted",
    "C27_foreign_refuted",
    "C27_exact_partial",
    "C27_plain_partial"
   ],
   "note": "False of the code: the copy made to add the final newline is searched for wiki links and attribute lists after it was freed (every document without a final newline in the default mode), a stylesheet array is read after free when embedding, and an empty array of the caller's is freed. C27_exact_partial: a conversion is free of these faults iff none of the three conditions holds. The steps themselves are abstract and allocation never fails."
  },
  {
   "property": "C270",
   "status": "partial",
   "theorems": [
    "C270_refuted",
    "C270_partial"
   ],
   "note": "Refuted universally for lists that do not start with a or A. Proved for lists a, b, c, ... of at most 26 items."
  },
  {
   "property": "C271",
   "status": "partial",
   "theorems": [
    "C271_refuted",
    "C271_partial"
   ],
   "note": "Refuted universally: a paragraph between two items starts a new list. Proved for items with at most one blank line between them."
  },
  {
   "property": "C272",
   "status": "partial",
   "theorems": [
    "C272_refuted",
    "C268_kept"
   ],
   "note": "Refuted universally for every item in a fence. Proved only for documents without items (C268)."
  },
  {
   "property": "C273",
   "status": "partial",
   "theorems": [
    "C273_refuted",
    "C273_partial"
   ],
   "note": "Refuted universally: a sign behind a line of text is in its paragraph and stays. Proved for pages in which every sign is a paragraph of its own before a list without a style or before text, at most 146 such lists."
  },
  {
   "property": "C274",
   "status": "partial",
   "theorems": [
    "C274_refuted",
    "C274_partial"
   ],
   "note": "Refuted: a sign at the end of the page, a page that ends in the sign's last tag without its last byte, 178 signs that fill the buffer. Proved for pages as in C273."
  },
  {
   "property": "C275",
   "status": "proved",
   "theorems": [
    "C275_safe"
   ],
   "note": "For every text, as the pass is called. Without the newline that the caller adds it is false (case)."
  },
  {
   "property": "C276",
   "status": "proved",
   "theorems": [
    "C276_exact"
   ],
   "note": "For every text, with line ends LF, CR and CRLF."
  },
  {
   "property": "C277",
   "status": "partial",
   "theorems": [
    "C277_refuted",
    "C277_partial"
   ],
   "note": "Refuted universally for every line outside fences with two adjacent bars. Proved: a text without fences is unchanged exactly when it has no adjacent bars."
  },
  {
   "property": "C278",
   "status": "partial",
   "theorems": [
    "C278_refuted",
    "C278_partial"
   ],
   "note": "Refuted universally for a fence of back quotes with a line of tildes. Proved when all fences before are closed and no line in the fence begins as a fence does."
  },
  {
   "property": "C279",
   "status": "partial",
   "theorems": [
    "C279_refuted",
    "C279_partial"
   ],
   "note": "Refuted universally for cells that end with an escaped bar. Proved for rows without backslashes."
  },
  {
   "property": "C28",
   "status": "proved",
   "theorems": [
    "C28_safe"
   ],
   "note": "For every text; growth of the buffer is modelled, allocation never fails."
  },
  {
   "property": "C280",
   "status": "proved",
   "theorems": [
    "C280_once"
   ],
   "note": "For every text."
  },
  {
   "property": "C281",
   "status": "proved",
   "theorems": [
    "C281_safe"
   ],
   "note": "every text; the fold over the lines of the text never writes more than twice its length"
  },
  {
   "property": "C282",
   "status": "partial",
   "theorems": [
    "C282_partial",
    "C282_refuted"
   ],
   "note": "false: for every calm line and every easy line three blank lines between them become two; exact result by the relation Squeeze"
  },
  {
   "property": "C283",
   "status": "partial",
   "theorems": [
    "C283_partial",
    "C283_refuted"
   ],
   "note": "false for 'table:' when 'Table:' stands in the caption; proved with that guard for every text of calm lines before, one row, blank lines, caption, attributes, and a calm paragraph behind"
  },
  {
   "property": "C284",
   "status": "partial",
   "theorems": [
    "C284_partial",
    "C284_refuted"
   ],
   "note": "false for every line with table: behind a blank line or a row; true for lines without a bar at the start or behind such lines"
  },
  {
   "property": "C285",
   "status": "partial",
   "theorems": [
    "C285_partial",
    "C285_refuted"
   ],
   "note": "false when the block contains a line that starts with the other fence sign; true otherwise, up to line ends"
  },
  {
   "property": "C286",
   "status": "proved",
   "theorems": [
    "C286_newlines"
   ],
   "note": "every text"
  },
  {
   "property": "C287",
   "status": "partial",
   "theorems": [
    "C287_partial",
    "C287_refuted"
   ],
   "note": "false for every paragraph that begins with a bracket behind a row and a blank line; true directly behind the row and for other paragraphs"
  },
  {
   "property": "C288",
   "status": "partial",
   "theorems": [
    "C288_partial",
    "C288_refuted"
   ],
   "note": "false for every term with a bar; true for terms and texts without one"
  },
  {
   "property": "C289",
   "status": "proved",
   "theorems": [
    "C289_colon"
   ],
   "note": "every text of calm lines before, a row, blank lines, the caption without Table:/table: in it, attributes, and a calm paragraph behind"
  },
  {
   "property": "C29",
   "status": "partial",
   "theorems": [
    "C29_refuted",
    "C29_pieces",
    "C29_partial",
    "C29_one_cut",
    "C29_short_partial"
   ],
   "note": "False as stated: a tag longer than the room left in the buffer is dropped. Proved: for every html the output is, modulo white space, the sequence of tags and bytes with some pieces left out; nothing is left out if each piece has length + 2*depth at most 97 (every html up to 48 bytes in particular)."
  },
  {
   "property": "C290",
   "status": "proved",
   "theorems": [
    "C290_safe"
   ],
   "note": "every text, every page, every list of tags"
  },
  {
   "property": "C291",
   "status": "proved",
   "theorems": [
    "C291_hidden"
   ],
   "note": "every text can be divided; exact result for every division; no tag left"
  },
  {
   "property": "C292",
   "status": "partial",
   "theorems": [
    "C292_partial",
    "C292_refuted"
   ],
   "note": "false for every tag followed by a digit (the name swallows it; another tag may appear); proved when no text behind a tag begins with a digit and no name stands in the text"
  },
  {
   "property": "C293",
   "status": "partial",
   "theorems": [
    "C293_partial",
    "C293_refuted"
   ],
   "note": "false when a digit stands behind a name; otherwise proved for every page"
  },
  {
   "property": "C294",
   "status": "partial",
   "theorems": [
    "C294_partial",
    "C294_refuted"
   ],
   "note": "false for numbers of 2^64 and more, which are read modulo 2^64; proved below"
  },
  {
   "property": "C295",
   "status": "proved",
   "theorems": [
    "C295_room"
   ],
   "note": "Allocation assumed to succeed."
  },
  {
   "property": "C296",
   "status": "proved",
   "theorems": [
    "C296_only_links"
   ],
   "note": "The relation Linked says which words may be replaced and by what."
  },
  {
   "property": "C297",
   "status": "partial",
   "theorems": [
    "C297_refuted",
    "C297_partial"
   ],
   "note": "False: behind a lone backtick no URL becomes a link. Proved where the text in front has no backtick, bracket, brace, <, @, tab, four spaces or scheme."
  },
  {
   "property": "C298",
   "status": "partial",
   "theorems": [
    "C298_refuted",
    "C298_partial"
   ],
   "note": "False: every other mark such as ) or * becomes part of the link and of its target. Proved for full stop, comma, semicolon and colon."
  },
  {
   "property": "C299",
   "status": "partial",
   "theorems": [
    "C299_refuted",
    "C299_partial",
    "C299_code_ends"
   ],
   "note": "False: URLs in code with two backticks and in fences of tildes become links. Proved for one and for three to ten backticks. C299_code_ends: behind inline code URLs become links again."
  },
  {
   "property": "C30",
   "status": "partial",
   "theorems": [
    "C30_refuted",
    "C30_exact_partial",
    "C30_steps_partial",
    "C30_up_refuted"
   ],
   "note": "The claim is false: levels 1, 2, 1 give a list closed before its entry (C30_refuted, and C30_up_refuted for every document that steps up again). C30_exact_partial gives the exact condition on the levels under which the lists are well nested; C30_steps_partial the readable special case."
  },
  {
   "property": "C300",
   "status": "partial",
   "theorems": [
    "C300_refuted",
    "C300_partial"
   ],
   "note": "False: a link with a mailto: target is taken for an e-mail address as a whole, and a URL among the words of a link becomes a link inside it. Proved for words without schemes and targets without @, brackets, braces and backticks."
  },
  {
   "property": "C301",
   "status": "proved",
   "theorems": [
    "C301_mail"
   ],
   "note": ""
  },
  {
   "property": "C302",
   "status": "partial",
   "theorems": [
    "C302_refuted",
    "C302_partial"
   ],
   "note": "False: an attribute with a mailto: value is turned into a link with the name of the attribute, and a URL behind = in a value becomes a link in the tag. Proved for values without = and @."
  },
  {
   "property": "C303",
   "status": "proved",
   "theorems": [
    "C303_lines"
   ],
   "note": ""
  },
  {
   "property": "C304",
   "status": "partial",
   "theorems": [
    "C304_refuted",
    "C304_partial"
   ],
   "note": "Violated: for every text of 4 to 4000000 bytes without image behind a tag there is a file for which a byte is written behind the buffer (the unchecked NUL). For pages with one image the exact condition is proved, and that the page is complete otherwise."
  },
  {
   "property": "C305",
   "status": "proved",
   "theorems": [
    "C305_no_files"
   ],
   "note": "All pages."
  },
  {
   "property": "C306",
   "status": "partial",
   "theorems": [
    "C306_refuted",
    "C306_partial"
   ],
   "note": "Violated: between two images any text of 5 bytes or more can lose its end. Holds when every admissible result fits into 3 times the page plus 1024 bytes."
  },
  {
   "property": "C307",
   "status": "partial",
   "theorems": [
    "C307_refuted",
    "C307_partial"
   ],
   "note": "Violated for every tag with a > before its source. Otherwise proved for pages with one image outside the sizes of C304; the data decode to the bytes of the file followed by zeros (C01)."
  },
  {
   "property": "C308",
   "status": "proved",
   "theorems": [
    "C308_remote"
   ],
   "note": "For pages with one image; any file system."
  },
  {
   "property": "C309",
   "status": "partial",
   "theorems": [
    "C309_refuted",
    "C309_partial"
   ],
   "note": "Violated: every other extension, such as avif or tiff, is called image/png. Holds for the listed extensions in any case."
  },
  {
   "property": "C31",
   "status": "partial",
   "theorems": [
    "C31_refuted",
    "C31_memory_refuted",
    "C31_partial",
    "C31_memory_partial",
    "C31_covers_partial"
   ],
   "note": "False for short notes: the block has three bytes per byte of the text, so the label of a definition is dropped for ^[a], and the terminator is stored outside for ^[] and for an empty text. Proved: for every text made of clear parts the result is the specified one exactly when it is shorter than the block; for any text the loop ends and only the terminator can be outside; every text without code marks is covered."
  },
  {
   "property": "C310",
   "status": "partial",
   "theorems": [
    "C310_refuted",
    "C310_partial"
   ],
   "note": "Violated: the value of data-src is replaced. A tag without src= is never changed."
  },
  {
   "property": "C311",
   "status": "proved",
   "theorems": [
    "C311_nothing_lost"
   ],
   "note": "What a tree says is a relation of its own; the result is a permutation of it."
  },
  {
   "property": "C312",
   "status": "partial",
   "theorems": [
    "C312_refuted",
    "C312_partial"
   ],
   "note": "Violated: with lists of one type (say - and +) followed by one of another, the third is put before the second, for all contents. Holds when no list of the type of the first of its run precedes a list of another type."
  },
  {
   "property": "C313",
   "status": "partial",
   "theorems": [
    "C313_refuted",
    "C313_partial"
   ],
   "note": "Violated: mixed lists nested in items that are moved stay mixed. Holds when the lists that differ from the first of their run have no mixed lists inside; lists must consist of items."
  },
  {
   "property": "C314",
   "status": "proved",
   "theorems": [
    "C314_unchanged"
   ],
   "note": "Equivalence."
  },
  {
   "property": "C315",
   "status": "proved",
   "theorems": [
    "C315_run"
   ],
   "note": "For runs whose items hold no mixed lists."
  },
  {
   "property": "C316",
   "status": "proved",
   "theorems": [
    "C316_separated"
   ],
   "note": "All trees."
  },
  {
   "property": "C317",
   "status": "proved",
   "theorems": [
    "C317_encode"
   ],
   "note": "Against an independent decoder; the buffer is part of the model."
  },
  {
   "property": "C318",
   "status": "proved",
   "theorems": [
    "C318_fixed"
   ],
   "note": "Equivalence, and idempotence."
  },
  {
   "property": "C319",
   "status": "partial",
   "theorems": [
    "C319_refuted",
    "C319_partial"
   ],
   "note": "Violated: without a slash behind the host the suffix goes into the host (https://example@2x.com), for all hosts with a dot. With a slash the host is never changed."
  },
  {
   "property": "C32",
   "status": "partial",
   "theorems": [
    "C32_command_metadata_refuted",
    "C32_command_metadata_partial",
    "C32_command_metadata_total"
   ],
   "note": "False for unquoted values that contain a comma; proved for all lists of pairs with quoted or comma-free values."
  },
  {
   "property": "C320",
   "status": "partial",
   "theorems": [
    "C320_refuted",
    "C320_partial"
   ],
   "note": "Violated: for a name without directory and a slash in the query the suffix goes into the query; also into a directory with a dot (example). Holds with a directory, or without slashes."
  },
  {
   "property": "C321",
   "status": "proved",
   "theorems": [
    "C321_shape"
   ],
   "note": "All addresses."
  },
  {
   "property": "C322",
   "status": "proved",
   "theorems": [
    "C322_srcset"
   ],
   "note": "All addresses; nothing is cut by snprintf."
  },
  {
   "property": "C323",
   "status": "partial",
   "theorems": [
    "C323_refuted",
    "C323_partial"
   ],
   "note": "Violated for every address with a dot in the query. Holds without."
  },
  {
   "property": "C324",
   "status": "partial",
   "theorems": [
    "C324_refuted",
    "C324_partial"
   ],
   "note": "Violated: with a question mark in the fragment no video is recognised. Otherwise recognised, and nothing else is; the two functions differ on a dot at the very front."
  },
  {
   "property": "C325",
   "status": "partial",
   "theorems": [
    "C325_media_safe_refuted",
    "C325_media_safe_partial"
   ],
   "note": "False of the code: a description of 542 bytes or more on an existing a.mp4 overruns the replacement buffer (proved for all such pages). Holds for every page whose image tags are finished within 150 bytes."
  },
  {
   "property": "C326",
   "status": "partial",
   "theorems": [
    "C326_only_marked_refuted",
    "C326_only_marked_partial"
   ],
   "note": "False of the code: the mark is looked for in the whole rest of the page, so an unmarked image before a marked one is replaced. Holds for pages without the mark."
  },
  {
   "property": "C327",
   "status": "proved",
   "theorems": [
    "C327_nothing_there"
   ],
   "note": ""
  },
  {
   "property": "C328",
   "status": "proved",
   "theorems": [
    "C328_only_below_base"
   ],
   "note": ""
  },
  {
   "property": "C329",
   "status": "partial",
   "theorems": [
    "C329_picture_refuted",
    "C329_picture_partial"
   ],
   "note": "False of the code: the plain WebP or AVIF is listed if only a denser one exists. Proved when, in each format, the plain variant exists whenever a denser one does, for names of at most 100 bytes without special characters."
  },
  {
   "property": "C33",
   "status": "partial",
   "theorems": [
    "C33_obfuscation_lossless_partial",
    "C33_obfuscation_lossless_refuted"
   ],
   "note": "Holds for documents without an ampersand; false for links that already contain references (double encoding)."
  },
  {
   "property": "C330",
   "status": "partial",
   "theorems": [
    "C330_refuted",
    "C330_renditions_partial"
   ],
   "note": "Violated: a word beginning with 38;5; or 48;5; is passed on verbatim, so any bytes reach the terminal. Proved whenever no word begins so."
  },
  {
   "property": "C331",
   "status": "partial",
   "theorems": [
    "C331_refuted",
    "C331_behind_partial"
   ],
   "note": "Violated for every colour without 256 colours: the text is coloured instead. Proved with 256 colours."
  },
  {
   "property": "C332",
   "status": "partial",
   "theorems": [
    "C332_refuted",
    "C332_near_partial"
   ],
   "note": "Violated, e.g. for reds 26 to 47. Proved: a number of the palette, no component more than 69 away (greys 11), components 0 and 255 exact."
  },
  {
   "property": "C333",
   "status": "proved",
   "theorems": [
    "C333_words",
    "C333_nothing"
   ],
   "note": "For every style string."
  },
  {
   "property": "C334",
   "status": "proved",
   "theorems": [
    "C334_short"
   ],
   "note": "For every digit and prefix."
  },
  {
   "property": "C335",
   "status": "proved",
   "theorems": [
    "C335_names",
    "C335_flags",
    "C335_known"
   ],
   "note": "For every name, flag and word."
  },
  {
   "property": "C336",
   "status": "partial",
   "theorems": [
    "C336_refuted",
    "C336_same_partial"
   ],
   "note": "Violated for every word behind bg that is not hexadecimal: it gives nothing. Proved for hexadecimal colours."
  },
  {
   "property": "C337",
   "status": "proved",
   "theorems": [
    "C337_first",
    "C337_every"
   ],
   "note": "For every theme and list of classes."
  },
  {
   "property": "C338",
   "status": "partial",
   "theorems": [
    "C338_refuted",
    "C338_attribute_partial",
    "C338_none"
   ],
   "note": "Violated: data-class= before class= is taken, and lists are cut at 255 bytes. Proved for a quoted class attribute of up to 255 bytes with no class= before it."
  },
  {
   "property": "C339",
   "status": "proved",
   "theorems": [
    "C339_bold"
   ],
   "note": "For every style."
  },
  {
   "property": "C34",
   "status": "partial",
   "theorems": [
    "C34_obfuscation_safe_partial",
    "C34_obfuscation_safe_refuted"
   ],
   "note": "Holds unless the document's last byte is >; false there."
  },
  {
   "property": "C340",
   "status": "proved",
   "theorems": [
    "C340_safe",
    "C340_whole"
   ],
   "note": "For every sequence of appends and failures; overflow of size_t is not modelled."
  },
  {
   "property": "C341",
   "status": "proved",
   "theorems": [
    "C341_lean"
   ],
   "note": "For every sequence of appends and failures."
  },
  {
   "property": "C35",
   "status": "proved",
   "theorems": [
    "C35_mail_link_obfuscated"
   ],
   "note": ""
  },
  {
   "property": "C36",
   "status": "partial",
   "theorems": [
    "C36_code_span_untouched",
    "C36_fenced_code_untouched"
   ],
   "note": "Proved for the first inline or fenced code of a text whose preceding part has neither back-tick nor delimiter; later code not covered."
  },
  {
   "property": "C37",
   "status": "partial",
   "theorems": [
    "C37_plugin_request_refuted",
    "C37_plugin_request_partial"
   ],
   "note": "Violated when the id or phase needs escaping; proved otherwise."
  },
  {
   "property": "C38",
   "status": "partial",
   "theorems": [
    "C38_ast_json_refuted",
    "C38_ast_json_partial"
   ],
   "note": "Violated by code blocks (language other than inc) and ordered lists; proved for all other documents."
  },
  {
   "property": "C39",
   "status": "partial",
   "theorems": [
    "C39_identity_filter_refuted",
    "C39_identity_filter_partial"
   ],
   "note": "Violated; exact result proved for every document whose code blocks and ordered lists are at top level, with the exact set of documents that survive."
  },
  {
   "property": "C40",
   "status": "proved",
   "theorems": [
    "C40_json_reader_total"
   ],
   "note": ""
  },
  {
   "property": "C41",
   "status": "proved",
   "theorems": [
    "C41_skip_value"
   ],
   "note": ""
  },
  {
   "property": "C42",
   "status": "partial",
   "theorems": [
    "C42_run_completes_refuted",
    "C42_run_completes_partial"
   ],
   "note": "Violated (deadlock with cat, SIGPIPE with an early exit); proved for commands that read all input before writing."
  },
  {
   "property": "C43",
   "status": "proved",
   "theorems": [
    "C43_run_output"
   ],
   "note": ""
  },
  {
   "property": "C44",
   "status": "proved",
   "theorems": [
    "C44_strict_filters",
    "C44_lenient_filters",
    "C44_filters_compose"
   ],
   "note": ""
  },
  {
   "property": "C45",
   "status": "proved",
   "theorems": [
    "C45_transform_chain",
    "C45_transform_chain_total"
   ],
   "note": ""
  },
  {
   "property": "C46",
   "status": "proved",
   "theorems": [
    "C46_truth_words"
   ],
   "note": ""
  },
  {
   "property": "C47",
   "status": "partial",
   "theorems": [
    "C47_chain_refuted",
    "C47_string_chain_partial",
    "C47_split_join_partial",
    "C47_split_strings_partial"
   ],
   "note": "False: first, last, slice and one-element joins leave the array behind and later transforms return to it. Proved for chains without array transforms and behind split:join with at least two parts."
  },
  {
   "property": "C48",
   "status": "partial",
   "theorems": [
    "C48_every_reference_refuted",
    "C48_references_partial",
    "C48_transforms_partial",
    "C48_no_metadata",
    "C48_determined"
   ],
   "note": "False: an unclosed [% disables every later reference. The exact behaviour is proved for all texts, with and without transforms."
  },
  {
   "property": "C49",
   "status": "proved",
   "theorems": [
    "C49_url_round_trip"
   ],
   "note": "For every NUL-free value."
  },
  {
   "property": "C50",
   "status": "partial",
   "theorems": [
    "C50_slug_refuted",
    "C50_slug_partial"
   ],
   "note": "False: hyphens of the input are dropped, so slug is not idempotent, and a leading hyphen is possible. Alphabet, single hyphens and no trailing hyphen are proved."
  },
  {
   "property": "C51",
   "status": "proved",
   "theorems": [
    "C51_replace",
    "C51_remove",
    "C51_determined"
   ],
   "note": "Literal replacement; the regex branch is not modelled."
  },
  {
   "property": "C52",
   "status": "partial",
   "theorems": [
    "C52_escape_utf8_refuted",
    "C52_escape_partial",
    "C52_determined"
   ],
   "note": "False for UTF-8: one reference per byte. Exact behaviour proved for all values."
  },
  {
   "property": "C53",
   "status": "partial",
   "theorems": [
    "C53_no_undefined_behaviour_refuted",
    "C53_no_undefined_behaviour_partial"
   ],
   "note": "False for negative and huge numbers. Proved for options without minus sign and with at most nine digits, values below 8 GB, apart from format and regex."
  },
  {
   "property": "C54",
   "status": "partial",
   "theorems": [
    "C54_truncate_refuted",
    "C54_truncate_partial"
   ],
   "note": "False when the suffix is not shorter than the limit; otherwise proved."
  },
  {
   "property": "C55",
   "status": "partial",
   "theorems": [
    "C55_substring_refuted",
    "C55_substring_partial"
   ],
   "note": "False without an end: the last byte is lost (shown for every value and start). Proved for two numbers."
  },
  {
   "property": "C56",
   "status": "proved",
   "theorems": [
    "C56_pad"
   ],
   "note": "Widths below LONG_MAX."
  },
  {
   "property": "C57",
   "status": "proved",
   "theorems": [
    "C57_trim",
    "C57_basename"
   ],
   "note": "All values."
  },
  {
   "property": "C58",
   "status": "partial",
   "theorems": [
    "C58_anchors_refuted",
    "C58_regex_partial",
    "C58_determined",
    "C58_regex_safe"
   ],
   "note": "regexec is a parameter constrained only to report sound offsets. False for anchors: each search starts on the remaining text without REG_NOTBOL, so ^ matches again behind every match. The rest is proved exactly, with determinacy and memory safety."
  },
  {
   "property": "C59",
   "status": "proved",
   "theorems": [
    "C59_phase"
   ],
   "note": "Handlers are arbitrary functions."
  },
  {
   "property": "C60",
   "status": "partial",
   "theorems": [
    "C60_index",
    "C60_merge_partial"
   ],
   "note": "The index is read exactly. The merged text is right when every entry of depth 2 or more names a file without headings (see C15)."
  },
  {
   "property": "C61",
   "status": "proved",
   "theorems": [
    "C61_stdin"
   ],
   "note": "Every way the reads split the data."
  },
  {
   "property": "C62",
   "status": "partial",
   "theorems": [
    "C62_combine_refuted",
    "C62_combine_partial",
    "C62_summary_first_partial",
    "C62_summary_links"
   ],
   "note": "False when a SUMMARY follows another file: no blank line is written between them. Proved for files only and for a SUMMARY in front, with the links of a SUMMARY read in order."
  },
  {
   "property": "C63",
   "status": "partial",
   "theorems": [
    "C63_open_cell_refuted",
    "C63_separator_rows_partial",
    "C63_determined"
   ],
   "note": "Rows with unclosed cells are deleted regardless of content (refuted); exact for rows of closed cells without markup inside."
  },
  {
   "property": "C64",
   "status": "partial",
   "theorems": [
    "C64_quotes_refuted",
    "C64_quotes_partial",
    "C64_every_html",
    "C64_other_language"
   ],
   "note": "Refuted when the result would be at least twice the html (quotes left, terminator out of bounds); exact below that."
  },
  {
   "property": "C65",
   "status": "proved",
   "theorems": [
    "C65_render"
   ],
   "note": ""
  },
  {
   "property": "C66",
   "status": "partial",
   "theorems": [
    "C66_parse_partial",
    "C66_every_text",
    "C66_total",
    "C66_unclosed_refuted"
   ],
   "note": "Exact for every document whose fences are closed; every text is such a document or ends in an unclosed fence, whose code is lost (refuted)."
  },
  {
   "property": "C67",
   "status": "partial",
   "theorems": [
    "C67_last_partial",
    "C67_silent_partial",
    "C67_documented_partial",
    "C67_sanitize",
    "C67_theme_kept",
    "C67_theme_first",
    "C67_ignored_refuted",
    "C67_sanitize_refuted",
    "C67_indices_refuted",
    "C67_spelling_refuted"
   ],
   "note": "Proved for all metadata lists and all options except three irregular ones, which are characterised exactly; refuted as documented: per-cell-alignment and emoji-autocorrect are ignored, wikilink-sanitize: yes switches it off, indices leaves Leanpub syntax off, spaces in keys matter."
  },
  {
   "property": "C68",
   "status": "partial",
   "theorems": [
    "C68_reads_once",
    "C68_reads",
    "C68_last_partial",
    "C68_mode",
    "C68_none",
    "C68_order_refuted",
    "C68_unsafe_refuted"
   ],
   "note": "Exact: the last flag about an option after the last mode flag decides. Refuted: a mode flag undoes all flags before it, among them --no-unsafe and --to."
  },
  {
   "property": "C69",
   "status": "partial",
   "theorems": [
    "C69_plugins",
    "C69_flags_partial",
    "C69_metadata_refuted",
    "C69_mode_refuted",
    "C69_unsafe_refuted",
    "C69_format_refuted",
    "C69_css_refuted",
    "C69_bibliography_refuted"
   ],
   "note": "The plugin flags always win; every other flag wins exactly when the merged metadata neither mentions the option nor asks for a mode. Refuted for --no-unsafe, --to, --css and --bibliography."
  },
  {
   "property": "C70",
   "status": "partial",
   "theorems": [
    "C70_extract_partial",
    "C70_reading",
    "C70_long_line_refuted",
    "C70_lost_text_refuted",
    "C70_empty_refuted"
   ],
   "note": "Violated: lines are cut at 1023 bytes, white space before ')' puts a NUL into the text, and an empty document writes one byte into malloc(0). Exact for all texts without these."
  },
  {
   "property": "C71",
   "status": "partial",
   "theorems": [
    "C71_replace_partial",
    "C71_marked",
    "C71_terminates_partial",
    "C71_bounds",
    "C71_full_refuted",
    "C71_dropped_refuted",
    "C71_smashed_refuted",
    "C71_endless_refuted"
   ],
   "note": "Violated: NUL stored behind a full buffer, long expansions dropped, stack arrays overrun, endless loop for an empty abbreviation. Proved exact iff the result is shorter than five times the input, given non-empty abbreviations and contents fitting the arrays."
  },
  {
   "property": "C72",
   "status": "partial",
   "theorems": [
    "C72_text_partial",
    "C72_tags_partial",
    "C72_tags_refuted"
   ],
   "note": "Stated for the function under the conditions of C71. The text outside abbreviations is unchanged; tags are unchanged if no abbreviation occurs in one (otherwise refuted)."
  },
  {
   "property": "C73",
   "status": "proved",
   "theorems": [
    "C73_order",
    "C73_run",
    "C73_once",
    "C73_made"
   ],
   "note": "Existence and uniqueness of the reading, and the run follows it. The steps are arbitrary functions."
  },
  {
   "property": "C74",
   "status": "proved",
   "theorems": [
    "C74_returned",
    "C74_words"
   ],
   "note": "Under the hypothesis that the run ends without undefined behaviour, which C27_exact_partial characterises. C74_words pins the helper notions shared by specification and model."
  },
  {
   "property": "C75",
   "status": "partial",
   "theorems": [
    "C75_refuted",
    "C75_html_partial",
    "C75_other_partial"
   ],
   "note": "False of the code: six buffers are never released; for other output formats none of the step buffers is. C75_html_partial gives the exact set for HTML output."
  },
  {
   "property": "C76",
   "status": "proved",
   "theorems": [
    "C76_text",
    "C76_html"
   ],
   "note": "Citations are excepted because metadata of the document switches them on."
  },
  {
   "property": "C77",
   "status": "partial",
   "theorems": [
    "C77_refuted",
    "C77_partial",
    "C77_html_partial"
   ],
   "note": "False of the code: highlights, inserts, inline tables and liquid tags are processed in every mode. C77_partial: these four are the only ones."
  },
  {
   "property": "C78",
   "status": "partial",
   "theorems": [
    "C78_exact",
    "C78_refuted",
    "C78_partial"
   ],
   "note": "C78_exact characterises the output for every text by a reading relation with the code state of backtick runs. Refuted as stated: after a single backtick nothing is marked."
  },
  {
   "property": "C79",
   "status": "partial",
   "theorems": [
    "C79_refuted",
    "C79_partial"
   ],
   "note": "Refuted: a mark opened before the code ends at a pair inside it. Holds behind a text without marks and backticks."
  },
  {
   "property": "C80",
   "status": "partial",
   "theorems": [
    "C80_refuted",
    "C80_deep_refuted",
    "C80_partial"
   ],
   "note": "False as stated: the empty html has a buffer of no bytes, and deep indentation can fill the buffer so that the terminator lies behind it. Proved under the guard of C29_partial."
  },
  {
   "property": "C81",
   "status": "partial",
   "theorems": [
    "C81_refuted",
    "C81_end_refuted",
    "C81_partial"
   ],
   "note": "False as stated: two empty lines in code become one, and a line is added before the end of a pre element. Proved for code text without three newlines in a row, when nothing is dropped (guard of C29_partial)."
  },
  {
   "property": "C82",
   "status": "partial",
   "theorems": [
    "C82_refuted",
    "C82_partial",
    "C82_safe"
   ],
   "note": "The claim is false for tables above 4096 bytes (the rest is dropped). C82_partial: everything is there when it fits. C82_safe: no byte outside the buffer for all inputs."
  },
  {
   "property": "C83",
   "status": "partial",
   "theorems": [
    "C83_refuted",
    "C83_partial"
   ],
   "note": "The claim is false: texts are put in unescaped. C83_partial covers texts without the four special characters."
  },
  {
   "property": "C84",
   "status": "partial",
   "theorems": [
    "C84_refuted",
    "C84_partial",
    "C84_pair"
   ],
   "note": "The claim is false: numbers behind the marker are taken. C84_partial: true if no digit follows; C84_pair: true for {{TOC:m-n}} whatever follows."
  },
  {
   "property": "C85",
   "status": "partial",
   "theorems": [
    "C85_refuted",
    "C85_partial",
    "C85_first_partial",
    "C85_code_partial"
   ],
   "note": "The claim is false: only the first marker is replaced. C85_partial: for all inputs at most one marker is replaced and nothing else changes; C85_first_partial: the first one is, when no code opens before it; C85_code_partial: markers in code stay."
  },
  {
   "property": "C86",
   "status": "partial",
   "theorems": [
    "C86_refuted",
    "C86_partial"
   ],
   "note": "The claim is false: an id with these letters excludes a heading, too. C86_partial: the headings are all in order except those with these letters anywhere in their attributes."
  },
  {
   "property": "C87",
   "status": "partial",
   "theorems": [
    "C87_refuted",
    "C87_text_partial",
    "C87_memory_partial",
    "C87_memory_refuted"
   ],
   "note": "The claim is false: text of emphasis is missing, and a text of 512 or more bytes overruns the block (for every such text). For headings of text and code only: complete, and safe exactly up to 511 bytes."
  },
  {
   "property": "C88",
   "status": "partial",
   "theorems": [
    "C88_exact",
    "C88_attribute_refuted",
    "C88_attribute_partial",
    "C88_empty_refuted"
   ],
   "note": "C88_exact settles which headings have an id, and which. The attribute is wrong when the id has a quote in it (refuted, partial otherwise), and a heading that is only an id becomes empty (refuted)."
  },
  {
   "property": "C89",
   "status": "partial",
   "theorems": [
    "C89_refuted",
    "C89_shift_refuted",
    "C89_data_refuted",
    "C89_cut_refuted",
    "C89_partial",
    "C89_exists",
    "C89_safe"
   ],
   "note": "The claim is false: after a heading with an id all ids are shifted; data-id is taken for an id; long ids cut the document. C89_partial: when no heading but the last has an id, true exactly when everything fits. C89_safe: memory safe for all inputs."
  },
  {
   "property": "C90",
   "status": "partial",
   "theorems": [
    "C90_refuted",
    "C90_partial"
   ],
   "note": "The claim is false for headings with an id of their own. True when none has."
  },
  {
   "property": "C91",
   "status": "partial",
   "theorems": [
    "C91_refuted",
    "C91_texts_refuted",
    "C91_partial"
   ],
   "note": "The claim is false in every format. Different texts of lower case letters and digits do get different ids (MultiMarkdown format)."
  },
  {
   "property": "C92",
   "status": "partial",
   "theorems": [
    "C92_refuted",
    "C92_own_refuted",
    "C92_partial"
   ],
   "note": "False when a note is followed by a colon and when the document defines the label itself; proved when neither is the case: every number from 1 to the number of notes is defined once and no other."
  },
  {
   "property": "C93",
   "status": "partial",
   "theorems": [
    "C93_refuted",
    "C93_unpaired_refuted",
    "C93_partial"
   ],
   "note": "False for code behind four back quotes (changed) and after an unpaired back quote (notes not seen); proved for texts made of clear parts without notes: the result is the text."
  },
  {
   "property": "C94",
   "status": "proved",
   "theorems": [
    "C94",
    "C94_unmarked"
   ],
   "note": "For every NUL-free text: the loop ends, the result is the rendering of a division of the text into bytes and marked words, and nothing is stored outside the block (an invariant of 13 bytes for 3)."
  },
  {
   "property": "C95",
   "status": "partial",
   "theorems": [
    "C95_refuted",
    "C95_partial"
   ],
   "note": "False: a single dollar sign of a price turns the marks off for the rest of the text. Proved for texts without code, dollar signs, Liquid tags and indented lines: every mark in front of a word is honoured."
  },
  {
   "property": "C96",
   "status": "partial",
   "theorems": [
    "C96_refuted",
    "C96_address_refuted",
    "C96_partial"
   ],
   "note": "False for code fenced by tildes and for addresses with a tilde. Proved for code spans, code fenced by back quotes, inline and display mathematics and Liquid tags behind text without marks."
  },
  {
   "property": "C97",
   "status": "partial",
   "theorems": [
    "C97_refuted",
    "C97_partial"
   ],
   "note": "Refuted: ++a++ loses its closing tag, and a text whose output fills the block has its NUL outside. Proved: the decomposition into insertions and bytes exists for every text, is written whenever it is shorter than twice the text, and (without attributes) only then; without backquotes no insertion is overlooked."
  },
  {
   "property": "C98",
   "status": "partial",
   "theorems": [
    "C98_refuted",
    "C98_partial"
   ],
   "note": "Refuted: an insertion opened before a code span closes in it. Proved for every code span with no two plus signs before it."
  },
  {
   "property": "C99",
   "status": "partial",
   "theorems": [
    "C99_refuted",
    "C99_partial"
   ],
   "note": "Refuted: escaped quotes keep their backslash, and lists are cut after 2047 bytes. Proved: every list of the grammar up to 2047 bytes without backslashes in values is read as written."
  }
 ]
}