{"id": "C01", "title": "Embedded images decode back to the file's bytes", "statement": "When a local image is embedded as a data: URL, decoding the base64 payload with a standard RFC 4648 decoder yields exactly the bytes of the file.", "quantifier": "every byte string (any length, any content)", "why_tests_cant": "Tests decode a handful of sample images; the claim ranges over every length and content, and the padding behaviour depends on the length modulo 3.", "anchors": ["src/apex.c: apex_base64_encode (82-123)", "src/apex.c: apex_read_and_encode"]}
{"id": "C02", "title": "Base64 output is a well-formed payload of the exact length", "statement": "The base64 text produced for n input bytes has exactly 4*ceil(n/3) characters, uses only the base64 alphabet and '=', is written entirely inside the buffer allocated for it, and always has the input data as a prefix of what a decoder recovers.", "quantifier": "every byte string", "why_tests_cant": "Buffer bounds must hold for every length; sampling lengths does not settle it.", "anchors": ["src/apex.c: apex_base64_encode (82-123)"]}
{"id": "C03", "title": "E-mail obfuscation is lossless and leaves nothing readable", "statement": "Hex-entity encoding of any string consists solely of numeric character references, one per byte, and resolving those references (as a browser does) gives the original string back.", "quantifier": "every NUL-free byte string", "why_tests_cant": "Round trip over all strings is an infinite set of inputs.", "anchors": ["src/apex.c: apex_encode_hex_entities (58-76)"]}
{"id": "C04", "title": "CriticMarkup accept keeps exactly the edited text", "statement": "Accepting changes returns the document in which every addition is replaced by its text, every deletion and comment by nothing, every substitution by its new text, every highlight by its text, and every other byte is unchanged and in the original order.", "quantifier": "every NUL-free text and every arrangement of (possibly malformed or adjacent) marks", "why_tests_cant": "Interactions of malformed, adjacent and nested marks are unbounded.", "anchors": ["src/extensions/critic.c: apex_process_critic_markup_text (277-328)", "scan_critic_markup (25-76)", "critic_to_html (81-171)"]}
{"id": "C05", "title": "CriticMarkup reject restores the original text", "statement": "Rejecting changes returns the document in which every addition and comment is removed, every deletion is replaced by its text, every substitution by its old text, every highlight by its text, and every other byte is unchanged and in order.", "quantifier": "every NUL-free text", "why_tests_cant": "Same as C04.", "anchors": ["src/extensions/critic.c: apex_process_critic_markup_text (277-328)"]}
{"id": "C06", "title": "CriticMarkup never writes outside its buffers", "statement": "Processing CriticMarkup in accept or reject mode never writes past the memory it allocated and never reads past the end of the text.", "quantifier": "every NUL-free text including the empty text, both modes", "why_tests_cant": "Memory safety must hold for all inputs; the boundary is at specific lengths only.", "anchors": ["src/extensions/critic.c (277-328)"]}
{"id": "C07", "title": "CriticMarkup markup mode shows every edit", "statement": "Rendering with the changes visible never loses document text: every byte outside a mark and every mark's text occurs in the output in order.", "quantifier": "every NUL-free text, markup mode", "why_tests_cant": "Whether an edit is dropped depends on the ratio of marks to plain text seen so far, an unbounded family of inputs.", "anchors": ["src/extensions/critic.c (81-171, 277-328)"]}
{"id": "C08", "title": "Highlight processing loses no text", "statement": "Converting ==text== to <mark>text</mark> never loses or invents text: removing the generated tags from the output gives the input with only the == delimiters of recognised highlights removed.", "quantifier": "every NUL-free text", "why_tests_cant": "Loss happens only when expansions outrun the slack left by earlier text; an input family no finite test set covers.", "anchors": ["src/extensions/highlight.c: apex_process_highlights (41-165)"]}
{"id": "C09", "title": "Highlight processing is memory safe", "statement": "Converting highlights never reads beyond the terminating NUL of the text nor writes beyond the buffer allocated for the result.", "quantifier": "every NUL-free text and every content of the memory behind the text", "why_tests_cant": "Over-reads are invisible in tests unless the neighbouring memory happens to matter.", "anchors": ["src/extensions/highlight.c (41-165)"]}
{"id": "C10", "title": "JSON text sent to plugins parses back to the same text", "statement": "The JSON string literal produced for a text contains no raw quote, backslash ambiguity or control character, and a conforming JSON parser recovers exactly the text.", "quantifier": "every NUL-free byte string", "why_tests_cant": "All control characters and all interleavings of escapes matter.", "anchors": ["src/plugins_env.c: apex_json_escape (15-48)", "src/ast_json.c: apex_json_escape_local (54-85)"]}
{"id": "C11", "title": "AST filter round trip preserves strings", "statement": "A string written into the JSON AST and read back by the program's own JSON reader is unchanged, whatever follows it in the stream.", "quantifier": "every NUL-free byte string and every continuation of the stream", "why_tests_cant": "Universally quantified round trip.", "anchors": ["src/ast_json.c: apex_json_escape_local (54-85), json_parse_string (428-492)"]}
{"id": "C12", "title": "Metadata lookup ignores case and white space", "statement": "Looking up a non-empty metadata key finds an entry whenever some entry's key equals the requested key up to ASCII case and white space, and returns nothing otherwise; an entry that differs only in case is preferred.", "quantifier": "every metadata list and every key", "why_tests_cant": "Ranges over all lists and all spellings.", "anchors": ["src/extensions/metadata.c: apex_metadata_get (778-825), normalize_metadata_key (757-772)"]}
{"id": "C13", "title": "Later metadata sources override earlier ones", "statement": "After merging metadata from configuration files, document and command line, looking up a key present in a later source returns the later source's value; keys absent from all later sources keep the earlier value, also when some source is missing.", "quantifier": "all metadata lists and keys (including spellings that differ in case or spacing)", "why_tests_cant": "Precedence must hold for every combination of lists and spellings.", "anchors": ["src/extensions/metadata.c: apex_merge_metadata (2352-2403), apex_metadata_get", "cli/main.c: 3074-3081, 3116-3126"]}
{"id": "C14", "title": "Plugins run in priority order", "statement": "Whatever order plugins are discovered in, they run in non-decreasing priority, ties ordered by id, and no plugin is lost or duplicated.", "quantifier": "every finite sequence of plugin registrations", "why_tests_cant": "All orders of discovery of any number of plugins.", "anchors": ["src/plugins.c: append_plugin_sorted (186-204), plugin_id_exists (206-212)"]}
{"id": "C15", "title": "Combining files shifts headings by the requested depth", "statement": "When files are combined with indentation k, every line starting with # gets exactly k more # characters, all other text is unchanged, and the conversion stays inside its buffer.", "quantifier": "every NUL-free content and every indentation k", "why_tests_cant": "Both content and k are unbounded; the failure depends on in-place rewriting from the second level on.", "anchors": ["cli/main.c: apex_cli_shift_headers (1046-1088)"]}
{"id": "C16", "title": "Tag-spacing clean-up changes nothing but white space inside tags", "statement": "Cleaning tag spacing never alters text outside opening tags, never changes any non-white-space byte, leaves no run of white space and no white space before > inside an opening tag, is idempotent, and never writes outside its buffer.", "quantifier": "every NUL-free html string", "why_tests_cant": "Universally quantified over documents.", "anchors": ["src/html_renderer.c: apex_clean_html_tag_spacing (1414-1458)"]}
{"id": "C17", "title": "Collapsing newlines between tags is harmless", "statement": "Collapsing inter-tag newlines removes only white space that lies between a > and a <, keeps at least one newline there, never reads past the end of the html and never writes past its buffer.", "quantifier": "every NUL-free html string and every content of the memory behind it", "why_tests_cant": "The failing case depends on the last byte only and on memory behind the buffer.", "anchors": ["src/html_renderer.c: apex_collapse_intertag_newlines (1478-1523)"]}
{"id": "C18", "title": "Removing blank table lines keeps every visible byte", "statement": "Removing blank lines inside tables deletes only whole white-space-only lines inside a table; everything else is byte-for-byte unchanged.", "quantifier": "every NUL-free html string", "why_tests_cant": "Universally quantified over documents.", "anchors": ["src/html_renderer.c: apex_remove_table_blank_lines (1824-1879)"]}
{"id": "C19", "title": "Base header level shifts headings and stays within h1..h6", "statement": "With base header level b every heading tag of level n becomes level min(6, n+b-1), matching open and close tags stay matched, all other bytes are unchanged, and no write goes outside the buffer.", "quantifier": "every NUL-free html string and every level b", "why_tests_cant": "Universally quantified; buffer growth points depend on lengths.", "anchors": ["src/html_renderer.c: apex_adjust_header_levels (1984-2157)"]}
{"id": "C20", "title": "Special markers become what they stand for and the scan stays inside the text", "statement": "Processing special markers replaces every page break, pause and end-of-block caret by its documented HTML, every {index} by the index placeholder, leaves every other byte unchanged, never reads past the end of the document and never writes outside its buffer.", "quantifier": "every NUL-free text and every content of the memory behind it", "why_tests_cant": "The over-read is triggered by one position only and its effect depends on neighbouring memory; the buffer limit depends on the ratio of page breaks to text.", "anchors": ["src/extensions/special_markers.c: apex_process_special_markers (16-193)"]}
{"id": "C21", "title": "Generated heading ids are the words of the heading, valid and never empty", "statement": "The id generated for a heading in GFM mode consists of the heading's words (letters and digits in lower case, emoji as names, accents dropped, other characters left out) with one dash between any two; it is never empty, has only lower-case letters, digits, '-' and '_', and no leading or trailing dash. MultiMarkdown and Kramdown ids keep what those formats keep. Generating an id never reads or writes outside its buffers.", "quantifier": "every heading text, every id format, every emoji name table", "why_tests_cant": "Universally quantified over headings in any script; overruns do not show in the output.", "anchors": ["src/extensions/header_ids.c: apex_generate_header_id (50-391)", "src/extensions/emoji.c: apex_find_emoji_name (197-220)"]}
{"id": "C22", "title": "Dynamic buffer behaves as an append-only byte string", "statement": "After any sequence of buffer operations the content equals the concatenation of everything appended since the last clear, and is NUL-terminated within capacity.", "quantifier": "every finite sequence of operations with every byte content", "why_tests_cant": "All histories of operations.", "anchors": ["src/buffer.c (1-93)"]}
{"id": "C23", "title": "UTF-8 validation accepts every well-formed text", "statement": "The UTF-8 validator accepts every well-formed UTF-8 byte string and rejects every string with a broken lead/continuation structure.", "quantifier": "every byte string", "why_tests_cant": "All byte strings of all lengths.", "anchors": ["src/utf8.c (1-56)"]}
{"id": "C24", "title": "HTML escaping makes any text inert and is reversible", "statement": "Escaped text contains no '<', '>' or '\"' byte, every '&' starts a character reference, and un-escaping gives the original back.", "quantifier": "every NUL-free byte string", "why_tests_cant": "All byte strings.", "anchors": ["src/renderer.c: escape_html"]}
{"id": "C25", "title": "Compatibility modes are consistent", "statement": "The option set for a mode only depends on the mode; strict modes (CommonMark, GFM) never enable raw (unsafe) HTML and each mode's option set enables only the extensions documented for that mode; the default options equal unified mode except for the listed differences.", "quantifier": "every mode value including out-of-range ones", "why_tests_cant": "Whole-record equalities over all fields are not covered by tests on single flags.", "anchors": ["src/apex.c: apex_options_default, apex_options_for_mode (2475-2800)"]}
{"id": "C26", "title": "The text handed to the parser always ends with a line break", "statement": "Whatever the preprocessing steps produce, the text given to the Markdown parser is that text, with a single newline appended exactly when it did not already end with a line break.", "quantifier": "every text", "why_tests_cant": "All texts.", "anchors": ["src/apex.c: apex_markdown_to_html (4945-4979)"]}
{"id": "C27", "title": "The converter never touches freed memory", "statement": "During a conversion no buffer is used after it has been released, whatever features are enabled and whatever the document contains.", "quantifier": "every options set and every document (every path through the pipeline's buffer hand-over)", "why_tests_cant": "Use-after-free does not show up in output-based tests.", "anchors": ["src/apex.c: apex_markdown_to_html (4945-5110, 5800-5830)"]}
{"id": "C28", "title": "Proofreader mode wraps highlights without overrunning its buffer", "statement": "Rewriting ==text== and ~~text~~ to CriticMarkup in proofreader mode never writes outside its buffer, although the space check is two bytes too small.", "quantifier": "every NUL-free text", "why_tests_cant": "The safety margin is an arithmetic invariant over all prefixes of all inputs.", "anchors": ["src/apex.c: apex_markdown_to_html (4727-4917)"]}
{"id": "C29", "title": "Pretty printing changes only white space", "statement": "Pretty-printing HTML never changes any byte other than white space.", "quantifier": "every NUL-free html string", "why_tests_cant": "Dropped tags depend on lengths relative to a moving buffer limit.", "anchors": ["src/pretty_html.c: apex_pretty_print_html (78-357)"]}
{"id": "C30", "title": "Table of contents nests correctly", "statement": "The generated table of contents is a well-nested list containing one entry per heading in the requested level range, in document order.", "quantifier": "every sequence of headings and every level range", "why_tests_cant": "All sequences of level jumps.", "anchors": ["src/extensions/toc.c: generate_toc_html (84-160)"]}
{"id": "C31", "title": "Inline footnotes are numbered consistently", "statement": "Every inline footnote is replaced by a reference, and exactly one definition with the same number and the footnote's text is appended; numbers are 1..n in document order.", "quantifier": "every NUL-free text", "why_tests_cant": "All documents with all numbers of notes.", "anchors": ["src/extensions/inline_footnotes.c (26-205)"]}
{"id": "C32", "title": "Command-line metadata is parsed as written", "statement": "Parsing a comma-separated list of KEY=VALUE pairs given with --meta yields exactly those pairs, including values with commas that do not start another pair, and always terminates.", "quantifier": "all lists of keys and values, quoted or not", "why_tests_cant": "All combinations of keys, values, quoting and separators.", "anchors": ["src/extensions/metadata.c: apex_parse_command_metadata (2260-2346), parse_key_value_pair (2201-2254)"]}
{"id": "C33", "title": "E-mail obfuscation does not change what the reader sees", "statement": "Obfuscating the mailto links of a document changes nothing for a reader that resolves character references: resolving them in the result gives what resolving them in the original gives.", "quantifier": "every html string", "why_tests_cant": "Ranges over all documents, including links that already contain references.", "anchors": ["src/apex.c: apex_obfuscate_email_links (129-212)"]}
{"id": "C34", "title": "E-mail obfuscation is memory safe", "statement": "Obfuscating mailto links never reads past the end of the html and never writes outside its buffer.", "quantifier": "every html string", "why_tests_cant": "The over-run is triggered only by documents that end right after a mail link's opening tag.", "anchors": ["src/apex.c: apex_obfuscate_email_links (129-212)"]}
{"id": "C35", "title": "An obfuscated mail link has no readable address or text", "statement": "A mail link is rewritten so that the complete mailto: address and the complete link text consist of numeric character references only.", "quantifier": "every address without a double quote and every non-empty link text without markup", "why_tests_cant": "All addresses and texts.", "anchors": ["src/apex.c: apex_obfuscate_email_links (129-212)"]}
{"id": "C36", "title": "Highlighting never touches inline code", "statement": "The text of an inline code span is copied unchanged by highlight processing, even when it contains ==text==.", "quantifier": "every text before, inside and after the first code span", "why_tests_cant": "The claim ranges over every code text, in particular every arrangement of delimiters in it.", "anchors": ["src/extensions/highlight.c: apex_process_highlights (41-165)"]}
{"id": "C37", "title": "The request sent to a text plugin is JSON", "statement": "For every plugin id, phase and text the request written to the plugin's standard input is one JSON document whose text field stands for the text.", "quantifier": "every plugin id, phase and NUL-free text", "why_tests_cant": "Ids come from the user's file names and manifests; every byte of every field matters.", "anchors": ["src/plugins_env.c: apex_run_external_plugin_command (64-82)"]}
{"id": "C38", "title": "The AST sent to filters is JSON", "statement": "Whatever the document, the AST written for filters (and for -t json) is a well-formed JSON document.", "quantifier": "every document tree", "why_tests_cant": "Trees nest without bound and every construct can occur inside every other.", "anchors": ["src/ast_json.c: write_inline (110-197), write_block (215-359), apex_cmark_to_pandoc_json (379-407)"]}
{"id": "C39", "title": "A filter that changes nothing leaves the document unchanged", "statement": "If a filter returns its input, the document after the filter is the document before it (ast_json.h: JSON preserving the structure round-trips).", "quantifier": "every document tree", "why_tests_cant": "A composition of a writer and a reader over all trees.", "anchors": ["src/ast_json.h", "src/ast_json.c: parse_inlines_array (583-803), parse_block (806-1044), apex_pandoc_json_to_cmark (1064-1128)"]}
{"id": "C40", "title": "Reading a filter's output always ends and stays in bounds", "statement": "Whatever bytes a filter prints, the JSON reader terminates and its string buffer never overflows.", "quantifier": "every byte string", "why_tests_cant": "Termination on every malformed input.", "anchors": ["src/ast_json.c: json_parse_string (428-492), json_skip_value (515-578), parse_inlines_array, parse_block, apex_pandoc_json_to_cmark"]}
{"id": "C41", "title": "Unknown fields are skipped exactly", "statement": "A value of any JSON type in a field the reader does not know is skipped up to exactly its end.", "quantifier": "every JSON value (RFC 8259) and everything that may follow it", "why_tests_cant": "Values nest without bound and may contain brackets and quotes in strings.", "anchors": ["src/ast_json.c: json_skip_value (515-578)"]}
{"id": "C42", "title": "Running a plugin or filter completes", "statement": "If a plugin terminates on its input, running it neither hangs nor kills the program.", "quantifier": "every command, every input, every interleaving of the two processes, every pipe capacity", "why_tests_cant": "Depends on scheduling and on sizes beyond the pipe buffers.", "anchors": ["src/plugins_env.c: 84-172", "src/filters_ast.c: run_single_ast_filter (32-122)"]}
{"id": "C43", "title": "A plugin's output is collected completely", "statement": "When a run ends, the string returned is exactly what the command wrote, the buffer was never exceeded, and the command was fed nothing but the beginning of the request.", "quantifier": "every command and every execution", "why_tests_cant": "All chunkings of reads and writes.", "anchors": ["src/plugins_env.c: 127-171", "src/filters_ast.c: 72-121"]}
{"id": "C44", "title": "Filter chain: order, strictness, failures", "statement": "Filters apply in order; in strict mode the result is an error exactly if some filter fails on the document it gets; otherwise a failing filter has no effect; a non-empty document never becomes empty.", "quantifier": "every list of commands, every behaviour of the commands, every document", "why_tests_cant": "All combinations of successes and failures in chains of any length.", "anchors": ["src/filters_ast.c: apex_run_ast_filters (124-193)"]}
{"id": "C45", "title": "Transform chains are read as written", "statement": "A metadata reference key:t1:t2(options):... is read as exactly that key and that sequence of transforms, and reading terminates for every input.", "quantifier": "every key, every chain of any length, every option text", "why_tests_cant": "Unbounded chain length and arbitrary texts.", "anchors": ["src/extensions/metadata.c: parse_transform_chain (858-955)"]}
{"id": "C46", "title": "Truth words of metadata options", "statement": "A metadata value switches an option on exactly when it is true, yes or 1 in any letter case, off exactly when it is false, no or 0, and never both.", "quantifier": "every value", "why_tests_cant": "All strings and letter cases.", "anchors": ["src/extensions/metadata.c: is_true_value, is_false_value (2408-2439)"]}
{"id": "C47", "title": "A transform chain is the composition of its transforms", "statement": "The result of [%key:t1:t2:...] is t2 applied to the result of t1, and so on; state left behind by one transform does not change what a later one sees.", "quantifier": "every chain of any length, every value, every behaviour of the library functions", "why_tests_cant": "Unbounded chains over hidden array state.", "anchors": ["src/extensions/metadata.c: apply_transform (1191-1946)", "src/extensions/metadata.c: apply_transform_chain (1949-1984)"]}
{"id": "C48", "title": "Metadata references are expanded", "statement": "Every well-formed [%key] reference with a known key is replaced by its value, everything else is copied unchanged, replaced values are not expanded again, the buffer is never exceeded and the expansion terminates.", "quantifier": "every text, every metadata list", "why_tests_cant": "Arbitrary texts with nesting, unclosed references and growth of the buffer.", "anchors": ["src/extensions/metadata.c: apex_metadata_replace_variables (1987-2147)"]}
{"id": "C49", "title": "urlencode and urldecode", "statement": "urlencode produces only unreserved bytes and %XX, and urldecode gives back the original value.", "quantifier": "every value", "why_tests_cant": "All byte strings.", "anchors": ["src/extensions/metadata.c: urlencode (1745-1764), urldecode (1766-1785)"]}
{"id": "C50", "title": "slug yields clean slugs", "statement": "slug yields lower-case letters, digits and single hyphens, with no hyphen at either end, and leaves slugs unchanged.", "quantifier": "every value", "why_tests_cant": "All byte strings.", "anchors": ["src/extensions/metadata.c: slug (1477-1508)"]}
{"id": "C51", "title": "replace and remove", "statement": "replace(old,new) and remove(old) substitute exactly the leftmost non-overlapping occurrences and stay inside their buffers.", "quantifier": "every value, every pair of texts", "why_tests_cant": "All lengths of text, pattern and replacement, overlapping patterns.", "anchors": ["src/extensions/metadata.c: replace (1510-1645), remove (1813-1836)"]}
{"id": "C52", "title": "escape is faithful", "statement": "The result of escape is free of markup bytes and is read back by an HTML reader as the original value.", "quantifier": "every value", "why_tests_cant": "All byte strings including UTF-8.", "anchors": ["src/extensions/metadata.c: escape (1705-1735)"]}
{"id": "C53", "title": "Transforms have no undefined behaviour", "statement": "No transform overflows a size or a buffer, whatever the options and the value.", "quantifier": "every transform, every option text, every value, every array state", "why_tests_cant": "Overflow needs particular huge or negative numbers.", "anchors": ["src/extensions/metadata.c: apply_transform (1191-1946)"]}
{"id": "C54", "title": "truncate keeps the limit", "statement": "truncate(n,suffix) yields at most n bytes, leaves shorter values alone, and otherwise yields the beginning of the value followed by the suffix.", "quantifier": "every n, suffix and value", "why_tests_cant": "All relations between limit, suffix length and value length.", "anchors": ["src/extensions/metadata.c: truncate (1674-1696)"]}
{"id": "C55", "title": "substring selects a range", "statement": "substring(a,b) is the bytes from a up to b, and substring(a) is everything from a on.", "quantifier": "every a, b and value", "why_tests_cant": "All positions relative to the length.", "anchors": ["src/extensions/metadata.c: substring (1647-1672)"]}
{"id": "C56", "title": "pad fills to the width", "statement": "pad(n,c) puts exactly as many c in front as are missing to n bytes.", "quantifier": "every n, c and value", "why_tests_cant": "All widths and values.", "anchors": ["src/extensions/metadata.c: pad (1917-1937)"]}
{"id": "C57", "title": "trim and basename cut exactly", "statement": "trim removes exactly the surrounding white space; basename removes exactly everything up to the last slash.", "quantifier": "every value", "why_tests_cant": "All byte strings.", "anchors": ["src/extensions/metadata.c: trim (1411-1429), basename (1737-1743)"]}
{"id": "C58", "title": "A declarative regex plugin replaces every match", "statement": "A plugin that has a pattern and a replacement and no handler rewrites the text of its phase by replacing each leftmost match found in what remains of the text with the replacement, $0..$9 and \\-escapes expanded, copying everything else; an empty match copies one byte and goes on; it terminates on every pattern and never writes outside its buffer.", "quantifier": "all texts, all replacement templates, all matchers (any regexec whose reported offsets are sound)", "why_tests_cant": "The matcher is a parameter: every possible compiled pattern and every sequence of matches has to be covered, including empty matches and matches at the end.", "anchors": ["src/plugins.c:640-744 apply_regex_replacement"]}
{"id": "C59", "title": "Running a plugin phase is a fold in order and leaves the environment as it was", "statement": "The text of a phase is given to the plugins in list order, each seeing the text left by the one before, a failing plugin leaving it alone; after every plugin the process environment has the values it had before; NULL is returned exactly when no plugin changed anything.", "quantifier": "all plugin lists, all texts, all environments, all handler behaviours", "why_tests_cant": "Handlers are external programs with arbitrary behaviour and the environment is shared state; only a proof over all of them shows nothing leaks from one plugin into the next.", "anchors": ["src/plugins.c:746-885 apex_plugins_run_text_phase"]}
{"id": "C60", "title": "A merge index lists files with their depth", "statement": "Each line of a MultiMarkdown merge index that is not blank and not a comment names one file; its depth is the number of leading tabs and groups of four spaces; trailing blanks and carriage returns are no part of the name; the merged text is the named readable files in order, headings shifted by their depth, each followed by a blank line.", "quantifier": "all index files made of entry, blank and comment lines with any indentation; all file contents", "why_tests_cant": "Any mixture of tabs, space groups, comments and line ends, and any number of entries.", "anchors": ["cli/main.c:1096-1213 apex_cli_mmd_merge_index"]}
{"id": "C61", "title": "Standard input is read completely", "statement": "However the bytes of standard input arrive, the text handed to the converter is exactly those bytes with a terminator behind, and no byte is stored outside the buffer.", "quantifier": "all inputs of any length, all ways in which read calls split them", "why_tests_cant": "The splitting is decided by the pipe and the lengths at which the buffer doubles are unbounded.", "anchors": ["cli/main.c:964-1004 read_stdin"]}
{"id": "C62", "title": "Combined documents are separated by a blank line", "statement": "Combine mode writes the readable documents in order, those linked from a SUMMARY file in the order of their links, with a blank line between any two and nothing before the first.", "quantifier": "all lists of files and SUMMARY files, all contents", "why_tests_cant": "The separator depends on state carried across files, so every mixture of files, unreadable files and SUMMARY files matters.", "anchors": ["cli/main.c:1262-1372 apex_cli_write_combined_chunk, apex_cli_combine_from_summary", "cli/main.c:2936-2985 main"]}
{"id": "C63", "title": "Only separator rows of tables are removed", "statement": "Removing table separator rows deletes exactly those rows inside a table all of whose cells consist of dashes, colons, pipes and white space with at least one dash or colon; every other byte is unchanged and no write goes outside the buffer.", "quantifier": "every NUL-free html string", "why_tests_cant": "Universally quantified over documents; malformed rows decide.", "anchors": ["src/html_renderer.c: apex_remove_table_separator_rows (1887-1978), cell_is_only_dashes (1528-1571)"]}
{"id": "C64", "title": "Quote language replaces every curly quote and nothing else", "statement": "Given a language by any of its names, in any case and spacing, every typographic quote (entity or UTF-8) becomes that language's quote, every other byte is unchanged, an unknown language or English changes nothing, and no write goes outside the buffer.", "quantifier": "every NUL-free html string and every language string", "why_tests_cant": "The buffer limit depends on the ratio of quotes to text; only short quote-heavy documents hit it.", "anchors": ["src/html_renderer.c: apex_adjust_quote_language (2163-2354)"]}
{"id": "C65", "title": "Rendering a tree can not be subverted by its texts", "statement": "Reading the HTML rendered for a syntax tree gives exactly the tree's elements, attributes and characters, whatever strings (titles, URLs, code, info strings) it contains, and the HTML can be read in no other way.", "quantifier": "every tree with heading levels 1 to 6 and every line break option", "why_tests_cant": "All trees of all depths with all contents.", "anchors": ["src/renderer.c: escape_html, render_node_html, apex_render_html (11-234)"]}
{"id": "C66", "title": "The minimal parser keeps every part of the document", "statement": "apex_parse always comes to an end and turns a document into its headings, fenced code blocks and paragraphs, in order, without losing text.", "quantifier": "every NUL-free text", "why_tests_cant": "All documents.", "anchors": ["src/parser.c: parse_simple, apex_parse (107-226)"]}
{"id": "C67", "title": "Metadata sets the options it documents", "statement": "Every option that the manual says metadata can control is set by the last metadata item with its key (any letter case) and a documented value; options no item mentions take the value of the mode the metadata asks for, or stay as they were.", "quantifier": "all metadata lists, all options, all keys and values", "why_tests_cant": "The result depends on every item of an arbitrary list and on all options at once; single-key tests do not show interference.", "anchors": ["src/extensions/metadata.c:2445-2855 apex_apply_metadata_to_options", "man/apex.1.md:571-617"]}
{"id": "C68", "title": "Flags mean what they say in any position", "statement": "An argument list is read in one way only; each option has the value given by the last flag about it, and the default of the chosen mode when there is none, independently of the position of the other flags.", "quantifier": "all argument lists, all options", "why_tests_cant": "Orders and combinations of more than a hundred flags.", "anchors": ["cli/main.c:1444-2119 main", "src/apex.c:2475-2800 apex_options_for_mode"]}
{"id": "C69", "title": "Flags win over metadata", "statement": "A flag given on the command line decides its option whatever the configuration files, the document and --meta say (man/apex-config.5.md: command-line flags always override).", "quantifier": "all argument lists, configuration files, documents and options", "why_tests_cant": "Needs every pair of flag and metadata key, and the interplay with mode changes.", "anchors": ["cli/main.c:2990-3014, 3097-3260, 3475-3495 main", "man/apex-config.5.md:19, 139-160", "man/apex-plugins.7.md:39-46"]}
{"id": "C70", "title": "Extracting abbreviations loses no text", "statement": "Collecting abbreviation definitions removes exactly the definition lines (*[A]: e and [>A]: e) and turns every inline definition [>(A) e] into A; every other byte of the document survives in order, and the resulting list has exactly the pairs defined (inline ones last first, then the lines in order).", "quantifier": "for all texts", "why_tests_cant": "line lengths, positions and contents are unbounded; the failures need a line of more than 1023 bytes, white space before the closing parenthesis or an empty document", "anchors": ["src/extensions/abbreviations.c:29-34", "src/extensions/abbreviations.c:40-98", "src/extensions/abbreviations.c:104-210"]}
{"id": "C71", "title": "Marking up abbreviations is exact, safe and ends", "statement": "The HTML produced is the input with every whole-word occurrence of an abbreviation, every [&gt;A] reference and every [&gt;(A) e] form replaced by <abbr title=\"e\">A</abbr>; nothing is dropped, no byte is written outside a buffer and the function returns.", "quantifier": "for all abbreviation lists and all HTML texts", "why_tests_cant": "the buffer is sized by a guess (five times the input), so safety depends on all combinations of expansions and occurrences", "anchors": ["src/extensions/abbreviations.c:215-364"]}
{"id": "C72", "title": "Marking up abbreviations changes text only", "statement": "Apart from the abbr tags put in, the output has the same text and the same tags as the input HTML.", "quantifier": "for all abbreviation lists and all HTML texts", "why_tests_cant": "depends on where in arbitrary markup an abbreviation occurs", "anchors": ["src/extensions/abbreviations.c:322-350"]}
{"id": "C73", "title": "Enabled steps run in one fixed order, each on its predecessor's text", "statement": "Before parsing, a conversion runs plugins, takes out metadata, attribute lists and abbreviations, and then applies every preprocessing step whose switches and mode are met, each exactly once, in one fixed order, each on the text its predecessor left; steps that are off or return nothing leave the text alone.", "quantifier": "every options set, document and behaviour of the steps", "why_tests_cant": "The combinations of some thirty switches with five modes and all documents cannot be enumerated.", "anchors": ["src/apex.c: apex_markdown_to_html (3985-4940)"]}
{"id": "C74", "title": "The result is the page composed of the document by the enabled HTML steps", "statement": "What a conversion returns is exactly the rendered document passed through the enabled HTML steps in their fixed order, then plugins, then wrapping and stylesheets (standalone) or scripts, then the last clean-up steps; or the other output format asked for; or nothing when the parser or a strict filter fails.", "quantifier": "every options set, document and behaviour of the steps", "why_tests_cant": "The combinations of switches, formats and documents cannot be enumerated.", "anchors": ["src/apex.c: apex_markdown_to_html (5006-5993)"]}
{"id": "C75", "title": "A conversion leaves nothing allocated but its result", "statement": "When a conversion returns, every block it allocated has been released, except the returned string, which is the caller's to release.", "quantifier": "every options set, document and behaviour of the steps", "why_tests_cant": "Leaks do not show in output and depend on which steps made a new text.", "anchors": ["src/apex.c: apex_markdown_to_html (5018-5028, 5123-5170, 5671-5713, 5827, 5930-5993)"]}
{"id": "C76", "title": "A feature that is switched off has no influence", "statement": "If a step's switches are not all on, or the mode is none of its modes, the result of every conversion is the same whatever that step would do.", "quantifier": "every step, every behaviour of the step, every options set and document", "why_tests_cant": "It is a statement about all behaviours of code that must not be reached.", "anchors": ["src/apex.c: apex_markdown_to_html (4070-5985)"]}
{"id": "C77", "title": "CommonMark mode means no extensions", "statement": "In CommonMark mode the parser is given the document as it is (with its last line closed): no extension rewrites the text.", "quantifier": "every document", "why_tests_cant": "All documents and all steps.", "anchors": ["src/apex.c: apex_markdown_to_html (4070-4940)", "src/apex.c: apex_options_for_mode (2630-2665)", "docs/USER_GUIDE.md:47"]}
{"id": "C78", "title": "Proofreader mode marks exactly the highlights and deletions outside code", "statement": "In proofreader mode ==x== becomes {==x==} and ~~x~~ becomes {--x--} wherever they stand outside code, x reaching to the next pair; every other byte is kept. A single backtick is not code.", "quantifier": "every NUL-free text", "why_tests_cant": "All interleavings of marks, backtick runs and unclosed marks.", "anchors": ["src/apex.c: apex_markdown_to_html (4727-4913)"]}
{"id": "C79", "title": "Proofreader mode leaves inline code alone", "statement": "The content of an inline code span is never changed in proofreader mode.", "quantifier": "every NUL-free text", "why_tests_cant": "All interleavings of marks and code.", "anchors": ["src/apex.c: apex_markdown_to_html (4744-4913)"]}
{"id": "C80", "title": "Pretty printing stays inside its buffer", "statement": "Pretty-printing HTML never stores a byte outside the output buffer, including the terminator.", "quantifier": "every NUL-free html string", "why_tests_cant": "The overflow needs an exact coincidence of nesting depth, text length and buffer growth.", "anchors": ["src/pretty_html.c: apex_pretty_print_html (78-355)"]}
{"id": "C81", "title": "Pretty printing keeps code", "statement": "The text inside pre and code elements is left byte for byte as it is by pretty printing.", "quantifier": "every html string, every code text and position", "why_tests_cant": "All texts, including those with runs of empty lines.", "anchors": ["src/pretty_html.c: apex_pretty_print_html (134-348)"]}
{"id": "C82", "title": "The table of contents lists every heading in range", "statement": "The table of contents has one entry for each heading whose level lies in the range of the marker, in document order, with the heading's text and a link to its id; nothing is dropped and no byte is stored outside the buffer.", "quantifier": "for all lists of headings and all level ranges", "why_tests_cant": "the buffer has a fixed size of 4096 bytes and an entry one of 1024; whether everything fits depends on number and length of all headings", "anchors": ["src/extensions/toc.c:84-160"]}
{"id": "C83", "title": "Heading texts are escaped in the table of contents", "statement": "The text of an entry in the table of contents is the heading's text, escaped for HTML, so that headings about markup do not become markup.", "quantifier": "for all heading texts", "why_tests_cant": "any text may occur in a heading", "anchors": ["src/extensions/toc.c:141-143"]}
{"id": "C84", "title": "The level range is given by the marker alone", "statement": "The level range of the table of contents depends only on what is written inside the marker, not on text that follows it in the document.", "quantifier": "for all markers and all texts behind them", "why_tests_cant": "the search for min, max and a colon is not bounded by the marker; a failure needs certain text anywhere later in the document", "anchors": ["src/extensions/toc.c:220-256"]}
{"id": "C85", "title": "Table of contents markers: replaced outside code, kept in code", "statement": "Every table of contents marker outside code is replaced by the table; markers in code and all other bytes of the document stay as they are, and no byte is stored outside a buffer.", "quantifier": "for all HTML texts and documents", "why_tests_cant": "markers, code and other text can be combined in unboundedly many ways", "anchors": ["src/extensions/toc.c:166-215", "src/extensions/toc.c:263-368"]}
{"id": "C86", "title": "Only headings of class no_toc are left out", "statement": "The headings collected for the table of contents are all headings of the document in order except those that carry the class no_toc.", "quantifier": "for all documents", "why_tests_cant": "documents are nested to any depth and attributes are arbitrary text", "anchors": ["src/extensions/toc.c:40-76"]}
{"id": "C87", "title": "The text of a heading is complete and fits its block", "statement": "The text taken from a heading for its id and its table of contents entry is all of the heading's text, and collecting it never stores a byte outside the block allocated for it.", "quantifier": "for all headings (all sequences of text, code and other inline elements of all lengths)", "why_tests_cant": "the block is enlarged only once because the recorded capacity is never updated; the overrun needs more than 511 bytes", "anchors": ["src/extensions/header_ids.c:396-458"]}
{"id": "C88", "title": "Ids written in headings", "statement": "A heading that ends in [id] or {#id} gets exactly this id, and its text is what is before it without trailing white space; any other heading is unchanged; the id attribute made of it holds exactly this id, and no heading becomes empty.", "quantifier": "for all heading texts", "why_tests_cant": "all positions of brackets, braces, quotes and white space", "anchors": ["src/extensions/header_ids.c:473-567", "src/extensions/header_ids.c:630-634"]}
{"id": "C89", "title": "Every heading gets its own id and nothing else changes", "statement": "Putting ids into the HTML gives each heading tag, in order, the id of the corresponding heading of the document (as attribute or as anchor), replaces an id that is there already, and changes no other byte; no byte is stored outside the block.", "quantifier": "for all HTML texts and all lists of ids", "why_tests_cant": "all mixtures of headings with and without ids; the block is sized by a guess of a hundred bytes per heading", "anchors": ["src/html_renderer.c:1075-1397"]}
{"id": "C90", "title": "Table of contents links lead to headings", "statement": "Every entry of the table of contents links to an id that a heading of the document gets.", "quantifier": "for all documents and all id formats", "why_tests_cant": "ids are computed in two places from arbitrary documents", "anchors": ["src/extensions/toc.c:316-319", "src/html_renderer.c:1090-1148"]}
{"id": "C91", "title": "Heading ids are unique", "statement": "No two headings of a document get the same id.", "quantifier": "for all documents and all id formats", "why_tests_cant": "a collision depends on pairs of arbitrary headings", "anchors": ["src/html_renderer.c:1090-1148", "src/extensions/header_ids.c:100-391"]}
{"id": "C92", "title": "Generated footnote numbers have one definition", "statement": "A label that is generated for an inline note is defined exactly once in the result, by the text of that note, whatever labels the document has itself and whatever follows the note.", "quantifier": "for all texts", "why_tests_cant": "a collision depends on arbitrary labels and neighbours", "anchors": ["src/extensions/inline_footnotes.c:119-182"]}
{"id": "C93", "title": "Inline notes leave code and other text alone", "statement": "Code blocks, code spans and text without notes pass through unchanged, and a back quote without a partner does not keep notes from being seen.", "quantifier": "for all texts", "why_tests_cant": "all nestings and lengths of code marks", "anchors": ["src/extensions/inline_footnotes.c:68-88"]}
{"id": "C94", "title": "Superscripts and subscripts change marked words only", "statement": "The result of superscript and subscript processing is the text with some marked words put into sup, sub or u tags and every other byte as it was; the output block is always large enough, terminator included.", "quantifier": "for all NUL-free texts", "why_tests_cant": "the block is sized by a guess of five bytes per byte; that it always suffices depends on every mixture of marks", "anchors": ["src/extensions/sup_sub.c:42-436"]}
{"id": "C95", "title": "Superscript and subscript marks are honoured", "statement": "Outside code, mathematics and Liquid tags every caret or tilde in front of a word is turned into a tag, whatever precedes it.", "quantifier": "for all texts", "why_tests_cant": "the state at a mark depends on everything before it", "anchors": ["src/extensions/sup_sub.c:67-432"]}
{"id": "C96", "title": "Code, mathematics and Liquid tags keep their carets and tildes", "statement": "Code spans, fenced code, mathematics, Liquid tags and addresses are copied unchanged by superscript and subscript processing.", "quantifier": "for all texts", "why_tests_cant": "all contents of all kinds of regions", "anchors": ["src/extensions/sup_sub.c:69-163"]}
{"id": "C97", "title": "Insertions become ins elements", "statement": "When insertions are processed, every ++text++ that is an insertion (the text is on one line, does not begin or end with white space or a plus sign, ends at the first signs that can end it) becomes an ins element, with the attributes of the braces behind it if there are any, everything else is copied, and no byte is written outside the block. The code gives the output a block of twice the size of the text: when the output does not fit, closing tags or bytes are silently dropped and the terminator may be written outside.", "quantifier": "for every text and every interpretation of the attributes", "why_tests_cant": "Whether the output fits depends on how many insertions there are and how long the rest of the text is; only an argument over all texts gives the exact bound.", "anchors": ["src/extensions/insert.c:19-248"]}
{"id": "C98", "title": "Insertions leave code spans alone", "statement": "A code span between backquotes is copied unchanged when insertions are processed. An insertion that is opened before the code span can close in it, so this holds when no two plus signs come before.", "quantifier": "for every text before, in and after a code span", "why_tests_cant": "The code span may contain any text and be surrounded by any text; a test shows one.", "anchors": ["src/extensions/insert.c:61-121"]}
{"id": "C99", "title": "Attribute lists are read as written", "statement": "Reading an attribute list gives its last identifier, its classes and its attributes in order, with quoted, curly-quoted and bare values and the bare media markers; a quotation mark written with a backslash is part of the value. In fact the backslash stays in the value, and a list is cut after 2047 bytes.", "quantifier": "for every attribute list made of identifiers, classes, key-value pairs, markers and words, with any white space", "why_tests_cant": "The items can be combined, joined and nested in quotes in unboundedly many ways; a round-trip proof over the grammar covers all of them.", "anchors": ["src/extensions/ial.c:85-265"]}
{"id": "C100", "title": "Reading an attribute list stays inside it", "statement": "Reading an attribute list terminates and never reads behind its end. In fact, when the list ends with a word that has no meaning, as in {.note important}, the reader steps over the terminating NUL and goes on in uninitialised memory.", "quantifier": "for every text", "why_tests_cant": "Reading uninitialised stack memory usually shows no effect in a test.", "anchors": ["src/extensions/ial.c:94-262"]}
{"id": "C101", "title": "Attributes are put in the tag completely", "statement": "The text for a tag consists of the identifier, the classes, the sizes that are numbers, the style with the other sizes, and the other attributes except the internal markers, each in the form name=\"value\". The code builds it in fixed buffers, so this holds exactly when every part fits; otherwise closing quotes or attributes are silently lost.", "quantifier": "for all attributes", "why_tests_cant": "The exact size limits of five buffers are only met by long inputs.", "anchors": ["src/extensions/ial.c:592-788"]}
{"id": "C102", "title": "Building the tag text writes inside the buffers", "statement": "Turning attributes into the text of a tag writes no byte outside its buffers. In fact a width of 64 digits followed by px overflows a 64-byte buffer, and sizes or a style together longer than 1023 bytes overflow the style buffer.", "quantifier": "for all attributes", "why_tests_cant": "Only inputs at the boundary of the buffers show the overflow, and a test need not notice it.", "anchors": ["src/extensions/ial.c:643-741"]}
{"id": "C103", "title": "A value cannot become another attribute", "statement": "Different attributes give different tags: what is written in a value stays in this value. In fact quotation marks are not escaped, so that a value between single quotes can add attributes such as event handlers to the tag.", "quantifier": "for all pairs of attribute lists", "why_tests_cant": "Injectivity speaks about all pairs of inputs.", "anchors": ["src/extensions/ial.c:85-265", "src/extensions/ial.c:592-788"]}
{"id": "C104", "title": "Only attribute definitions are taken out of the text", "statement": "Extracting the definitions {:name: ...} gives every definition with its attributes in order and leaves all other text unchanged. In fact text behind a definition in the same line is lost, lines are cut after 2047 bytes, and definitions in code blocks are taken out.", "quantifier": "for every text, given by its lines", "why_tests_cant": "The text may have any number of lines of any kind.", "anchors": ["src/extensions/ial.c:275-391"]}
{"id": "C105", "title": "References give the attributes of their definition", "statement": "{:name} at the end of a text gives the attributes of the first definition with this name, and {:name more} these attributes changed by the others. In fact the second form never finds the definition, and a name of several words reads behind the list.", "quantifier": "for all definitions, names and texts", "why_tests_cant": "A test shows single names; the proof covers all names, white space and lists of definitions.", "anchors": ["src/extensions/ial.c:396-403", "src/extensions/ial.c:472-586"]}
{"id": "C106", "title": "Merging attributes", "statement": "When attributes are merged, the identifier and the values of the second list replace those of the first, classes are appended, every other attribute is kept, and the attributes stay in their order.", "quantifier": "for all pairs of attributes", "why_tests_cant": "Duplicate keys in either list interact; the statement covers all lists.", "anchors": ["src/extensions/ial.c:409-466"]}
{"id": "C107", "title": "Markdown output says what the document says", "statement": "The Markdown written by apex_cmark_to_markdown contains, in order and each once, all letters (and all non-ASCII bytes) of the document: texts, code, HTML, addresses and titles, descriptions of pictures, cells of tables.", "quantifier": "for every document tree and dialect", "why_tests_cant": "the set of trees is infinite and the losses only show for particular node types, texts and dialects", "anchors": ["src/ast_markdown.c:101-211", "src/ast_markdown.c:214-386", "src/ast_markdown.c:388-409"]}
{"id": "C108", "title": "Escaped text is read back as the same text", "statement": "A text written to Markdown is read back, backslash escapes undone, as exactly the same text, and no unprotected character of it can begin markup.", "quantifier": "for every text and dialect", "why_tests_cant": "every byte string is a possible text; examples cannot cover all combinations of backslashes and marks", "anchors": ["src/ast_markdown.c:54-98", "src/ast_markdown.c:108-135"]}
{"id": "C109", "title": "Code spans survive the Markdown output", "statement": "A code span written to Markdown is read back by the rules of CommonMark as the same code.", "quantifier": "for every code text and every text following it", "why_tests_cant": "depends on runs of backticks and spaces anywhere in the code", "anchors": ["src/ast_markdown.c:145-151"]}
{"id": "C110", "title": "Code blocks survive the Markdown output", "statement": "A code block written to Markdown is read back by the rules of CommonMark with the same info string and the same content.", "quantifier": "for every info string and content", "why_tests_cant": "any line of the content can close the fence; a comparison of sample outputs does not show what is read back", "anchors": ["src/ast_markdown.c:268-277"]}
{"id": "C111", "title": "Every line of a quotation is marked", "statement": "In the Markdown output every non-empty line of a block quotation begins with the quotation mark >.", "quantifier": "for every content of a quotation", "why_tests_cant": "content can be nested without bound", "anchors": ["src/ast_markdown.c:279-328"]}
{"id": "C112", "title": "List items keep their content and numbers", "statement": "In the Markdown output the items of a list are numbered consecutively from the number of the list on, or marked, and the lines of an item after its first are indented so that they remain in the item.", "quantifier": "for every list", "why_tests_cant": "lists can be nested and of any length", "anchors": ["src/ast_markdown.c:330-353"]}
{"id": "C113", "title": "Links keep address and title in the Markdown output", "statement": "A link or picture written to Markdown is read back with the same address and the same title.", "quantifier": "for every address and title", "why_tests_cant": "addresses and titles are arbitrary byte strings", "anchors": ["src/ast_markdown.c:169-202"]}
{"id": "C114", "title": "Headings keep their level in the Markdown output", "statement": "A heading written to Markdown is read back, as one line, with its level and its whole content; a thematic break is written as one.", "quantifier": "for every heading level and content", "why_tests_cant": "content is an arbitrary tree", "anchors": ["src/ast_markdown.c:255-266", "src/ast_markdown.c:355-357"]}
{"id": "C115", "title": "A man page says what the document says", "statement": "The man page made of a document, as roff reads it, shows the text of the document, in order and complete, with the address after the text of a link; and requests that belong together (RS and RE, nf and fi) are balanced.", "quantifier": "for every document tree", "why_tests_cant": "trees are unbounded in depth and content", "anchors": ["src/ast_man.c:335-389", "src/ast_man.c:400-545", "src/ast_man.c:551-584"]}
{"id": "C116", "title": "Text in a man page is never markup", "statement": "Text that is written to a man page is read by roff as exactly that text, wherever it stands: a dot or apostrophe at the start of a line is not a request, a backslash is not an escape.", "quantifier": "for every text and every page written before it", "why_tests_cant": "the text is an arbitrary byte string and the position matters", "anchors": ["src/ast_man.c:51-90"]}
{"id": "C117", "title": "Conversion to a man page ends", "statement": "The conversion of a document to a man page comes to an end, whatever the content of its definition lists in HTML.", "quantifier": "for every fragment of HTML", "why_tests_cant": "non-termination on particular inputs; all inputs and any number of rounds", "anchors": ["src/ast_man.c:129-166"]}
{"id": "C118", "title": "Definition lists in HTML are shown in man pages", "statement": "A definition list in HTML is shown in the man page as a tagged paragraph with the text of its term and definition, entities decoded and emphasis kept.", "quantifier": "for every term and definition made of text, entities and tags", "why_tests_cant": "terms and definitions are arbitrary sequences of pieces", "anchors": ["src/ast_man.c:129-235"]}
{"id": "C119", "title": "A man page depends on its document only", "statement": "The man page made of a document is the same whatever documents were converted before in the same process.", "quantifier": "for every document and history", "why_tests_cant": "needs all sequences of conversions", "anchors": ["src/ast_man.c:398", "src/ast_man.c:421-433", "src/ast_man.c:505-514"]}
{"id": "C120", "title": "The title of a man page is its first heading", "statement": "The title argument of the .TH request is read back as the text of the first heading of level one.", "quantifier": "for every title", "why_tests_cant": "titles are arbitrary byte strings", "anchors": ["src/ast_man.c:255-272", "src/ast_man.c:564-575"]}
{"id": "C121", "title": "HTML man pages are well-formed", "statement": "The HTML man page made of a document, with or without navigation and headline, ends outside of tags and entities, and its tags are properly nested.", "quantifier": "for every document tree, title option and list of style sheets", "why_tests_cant": "trees are unbounded in depth and content", "anchors": ["src/ast_man.c:592-679", "src/ast_man.c:732-921"]}
{"id": "C122", "title": "HTML man pages show the text of the document", "statement": "The HTML man page shows the text of the document, complete and in order; in a line exactly, spaces included; markup characters of the text are shown as themselves.", "quantifier": "for every document tree", "why_tests_cant": "text is an arbitrary byte string in an arbitrary tree", "anchors": ["src/ast_man.c:592-679", "src/ast_man.c:732-809"]}
{"id": "C123", "title": "HTML man pages keep the links", "statement": "The links of the HTML man page are those of the document, in order, and their addresses are read back unchanged from the attributes.", "quantifier": "for every document tree and address", "why_tests_cant": "addresses are arbitrary byte strings", "anchors": ["src/ast_man.c:657-669"]}
{"id": "C124", "title": "The navigation of an HTML man page leads to its sections", "statement": "Each link of the navigation leads to a heading of level one in the page, in order; each such heading has a link with its text.", "quantifier": "for every document", "why_tests_cant": "fixed limits of length and number that small examples do not reach", "anchors": ["src/ast_man.c:681-730", "src/ast_man.c:892-904"]}
{"id": "C125", "title": "The headline of an HTML man page comes from its NAME section", "statement": "Title and headline of the page are the command and the description given in the first paragraph of the section NAME, their words separated by single spaces.", "quantifier": "for every document with such a section", "why_tests_cant": "arbitrary position and spacing", "anchors": ["src/ast_man.c:275-327", "src/ast_man.c:836-867"]}
{"id": "C126", "title": "Formulas are recognised exactly", "statement": "What stands between $ and $ (no blank inside of either, dollar signs within escaped) or between $$ and the next $$ is taken as a formula, with exactly its bytes; everything else with dollar signs stays text.", "quantifier": "for every text that follows a dollar sign", "why_tests_cant": "escapes and dollar signs in any combination", "anchors": ["src/extensions/math.c:29-73", "src/extensions/math.c:135-193"]}
{"id": "C127", "title": "A formula reaches the page whole", "statement": "The page shows the whole formula, between the marks of its kind, in a span of class math inline or math display.", "quantifier": "for every formula", "why_tests_cant": "formulas of any length and content; the text is put into a buffer and into HTML", "anchors": ["src/extensions/math.c:135-193"]}
{"id": "C128", "title": "Exactly the quotes with a callout marker become callouts", "statement": "A quote whose first paragraph begins with [!NAME], NAME being one of the known names in any case, is framed by HTML and loses the marker; every other block keeps its kind, its place and its content.", "quantifier": "for every document tree", "why_tests_cant": "all trees and all ways to write the marker", "anchors": ["src/extensions/callouts.c:15-43", "src/extensions/callouts.c:71-127", "src/extensions/callouts.c:191-215"]}
{"id": "C129", "title": "A callout is framed by closing tags of its class, with its title", "statement": "The HTML before and after a callout consists of the tags for its class and folding (details, open or not, for + and -), each opened one closed, and shows the title, or the name of the class when there is none.", "quantifier": "for every callout", "why_tests_cant": "titles of any length and content go through a buffer of 1024 bytes", "anchors": ["src/extensions/callouts.c:132-149"]}
{"id": "C130", "title": "Callouts lose no text", "statement": "With callouts the document shows what it showed before, in order, with the title of each callout for its marker; callouts may stand within callouts.", "quantifier": "for every document tree", "why_tests_cant": "trees of any depth", "anchors": ["src/extensions/callouts.c:132-215"]}
{"id": "C131", "title": "The title of a callout is its first line", "statement": "The rest of the first line of a callout is its title, and what follows that line is its content.", "quantifier": "for every callout", "why_tests_cant": "a first line of any inline elements", "anchors": ["src/extensions/callouts.c:104-124", "src/extensions/callouts.c:151-171"]}
{"id": "C132", "title": "Wiki links are found exactly, and nothing else changes", "statement": "In each text the wiki links, leftmost first and each up to the next ]], become links with the address and text they say; all other text and all other nodes stay as they are and where they are.", "quantifier": "for every document tree and all settings", "why_tests_cant": "brackets in any combination, trees of any depth", "anchors": ["src/extensions/wiki_links.c:53-85", "src/extensions/wiki_links.c:124-314", "src/extensions/wiki_links.c:404-617"]}
{"id": "C133", "title": "Every wiki link can be seen", "statement": "The link made for a wiki link has a text that is not empty.", "quantifier": "for every wiki link", "why_tests_cant": "all ways to write a link", "anchors": ["src/extensions/wiki_links.c:53-85", "src/extensions/wiki_links.c:552-564"]}
{"id": "C134", "title": "Cleaned page names are clean, stable and independent of spelling", "statement": "With sanitize on, the name of a page in an address has only lower-case letters, digits, points, slashes and single separators that stand within; cleaning it again changes nothing; page names that differ only in case and accents have the same address; no letter or digit is lost.", "quantifier": "for every page name, every separator mode", "why_tests_cant": "all byte strings, all accents", "anchors": ["src/extensions/wiki_links.c:92-111", "src/extensions/wiki_links.c:146-269"]}
{"id": "C135", "title": "Addresses of wiki links fit into their memory", "statement": "The address made for a wiki link, with its terminator, is never longer than the memory allocated for it.", "quantifier": "for every page, section and setting", "why_tests_cant": "lengths of any size; ligatures become two letters", "anchors": ["src/extensions/wiki_links.c:130-136", "src/extensions/wiki_links.c:140-314"]}
{"id": "C136", "title": "No link within a link", "statement": "Processing wiki links makes no link within a link.", "quantifier": "for every document tree", "why_tests_cant": "trees of any depth", "anchors": ["src/extensions/wiki_links.c:404-617"]}
{"id": "C137", "title": "A wiki link to a section leads to the heading", "statement": "The fragment of the address of [[Page#Section]] is the id that a heading with this title is given.", "quantifier": "for every title", "why_tests_cant": "all titles; two functions must agree", "anchors": ["src/extensions/wiki_links.c:306-311", "src/extensions/header_ids.c"]}
{"id": "C138", "title": "Separated data read back from the table", "statement": "For every CSV or TSV text, a reader of pipe tables (GitHub's rules) finds in the table that apex_csv_to_table returns exactly the cells of the data.", "quantifier": "for every text, comma or tab", "why_tests_cant": "all texts; cells may hold pipes or carriage returns", "anchors": ["src/extensions/includes.c:182-449"]}
{"id": "C139", "title": "Shape of the table and the alignment row", "statement": "The table has the first record as header, a delimiter row, and a row for every further record; a second record consisting of left, right, center, auto (any case), one for each column, sets the alignment and is not emitted; any other second record is data.", "quantifier": "for every text", "why_tests_cant": "all texts", "anchors": ["src/extensions/includes.c:182-449"]}
{"id": "C140", "title": "No cell of the data is lost", "statement": "Every cell of every data record is in the table, in its row and column.", "quantifier": "for every text, records of any length", "why_tests_cant": "all shapes of data", "anchors": ["src/extensions/includes.c:422-442"]}
{"id": "C141", "title": "The table fits its buffer", "statement": "apex_csv_to_table writes only inside the buffer it allocates (four times the text plus 64).", "quantifier": "for every text", "why_tests_cant": "sizes depend on columns and records of any number; an overrun may go unnoticed", "anchors": ["src/extensions/includes.c:375-444"]}
{"id": "C142", "title": "Table blocks are replaced, the rest is kept", "statement": "apex_process_inline_tables replaces every ```table block and the lines after every <!--TABLE--> marker by their table, leftmost first, and keeps everything else byte for byte.", "quantifier": "for every document", "why_tests_cant": "all documents", "anchors": ["src/extensions/inline_tables.c:30-332"]}
{"id": "C143", "title": "A document without table blocks is unchanged", "statement": "A document with no <!--TABLE--> and no fence with the info string table comes back as it is.", "quantifier": "for every document", "why_tests_cant": "all documents", "anchors": ["src/extensions/inline_tables.c:30-332"]}
{"id": "C144", "title": "Table markers in code are left alone", "statement": "What is in a fenced code block other than ```table is kept, whatever it is.", "quantifier": "for every block and every context", "why_tests_cant": "all contents", "anchors": ["src/extensions/inline_tables.c:161-181"]}
{"id": "C145", "title": "Delimiter of a ```table block", "statement": "The block is TSV if a line that is not blank has a tab, else CSV if one has a comma, else it is left unchanged (user guide).", "quantifier": "for every block", "why_tests_cant": "all blocks", "anchors": ["src/extensions/inline_tables.c:14-27", "docs/USER_GUIDE.md:252-270"]}
{"id": "C146", "title": "Data after a <!--TABLE--> marker", "statement": "The lines after the marker, up to the next blank line, are the data, with the same delimiter rule; what follows is converted on its own.", "quantifier": "for every document that begins with a marker", "why_tests_cant": "all documents", "anchors": ["src/extensions/inline_tables.c:184-312", "docs/USER_GUIDE.md:279-294"]}
{"id": "C147", "title": "The converted document fits its buffer", "statement": "apex_process_inline_tables writes only inside its buffer.", "quantifier": "for every document", "why_tests_cant": "an overrun by one byte goes unnoticed", "anchors": ["src/extensions/inline_tables.c:34-36,130-158,315-329"]}
{"id": "C148", "title": "Line ranges of an include", "statement": "{{file}}[N,M] includes lines N up to, not with, M of the file, each behind the prefix if one is given.", "quantifier": "for every file, range and prefix", "why_tests_cant": "all files, with and without a final newline, and all lengths of prefix", "anchors": ["src/extensions/includes.c:472-610,615-838", "tests/test_extensions.c:577-602"]}
{"id": "C149", "title": "A single line of an include", "statement": "{{file}}[N] includes line N of the file.", "quantifier": "for every file and number", "why_tests_cant": "all files", "anchors": ["src/extensions/includes.c:577-580,775-836"]}
{"id": "C150", "title": "The rest of a file", "statement": "{{file}}[N,] includes line N and all lines after it.", "quantifier": "for every file and number", "why_tests_cant": "all files, with and without a final newline", "anchors": ["src/extensions/includes.c:565-568,775-836"]}
{"id": "C151", "title": "Addresses never corrupt memory", "statement": "Whatever the address and the file, extract_lines writes only inside its buffer.", "quantifier": "for every address, file and regular expression engine", "why_tests_cant": "an overrun by one byte goes unnoticed", "anchors": ["src/extensions/includes.c:472-838"]}
{"id": "C152", "title": "A prefix alone", "statement": "{{file}}[prefix=\"p\"] includes the file with p before all lines.", "quantifier": "for every file and prefix", "why_tests_cant": "all files", "anchors": ["src/extensions/includes.c:480-499,619-653"]}
{"id": "C153", "title": "Every include ends", "statement": "Cutting a part out of a file ends for every address.", "quantifier": "for every address, file and regular expression engine", "why_tests_cant": "no test shows that something always ends", "anchors": ["src/extensions/includes.c:684-692"]}
{"id": "C154", "title": "Ranges between patterns", "statement": "{{file}}[/A/,/B/] includes the first line that matches A and the lines after it, up to the first that matches B from there on, or to the end; nothing if none matches A.", "quantifier": "for every file, pattern and regular expression engine", "why_tests_cant": "all files and patterns", "anchors": ["src/extensions/includes.c:502-545,664-773"]}
{"id": "C155", "title": "Includes are replaced and nothing else", "statement": "apex_process_includes replaces every include outside code by the file (or the part its address names, or a table of its data) with its own includes replaced in turn, and keeps all other text.", "quantifier": "for every document, every disk and every depth of nesting", "why_tests_cant": "all documents and file systems", "anchors": ["src/extensions/includes.c:1075-1536"]}
{"id": "C156", "title": "Include syntax in code stays", "statement": "Include syntax inside a fenced code block or a code span is never processed.", "quantifier": "for every block, number of backticks and document after it", "why_tests_cant": "all contents of code blocks", "anchors": ["src/extensions/includes.c:984-1070,1104-1117", "CHANGELOG.md:327-352"]}
{"id": "C157", "title": "Documents without includes are unchanged", "statement": "A document in which nothing looks like an include is returned as it is.", "quantifier": "for every document and disk", "why_tests_cant": "all documents", "anchors": ["src/extensions/includes.c:984-1070"]}
{"id": "C158", "title": "Missing files stay visible", "statement": "An include whose file cannot be read is left in the document as written.", "quantifier": "for every include, document and disk", "why_tests_cant": "all names and syntaxes", "anchors": ["src/extensions/includes.c:1119-1521"]}
{"id": "C159", "title": "Text after an include stays", "statement": "<<[file] is replaced up to its closing bracket; what follows stays, unless an address in brackets follows at once.", "quantifier": "for every file and text after it", "why_tests_cant": "all texts", "anchors": ["src/extensions/includes.c:1371-1387"]}
{"id": "C160", "title": "Transclude base of an included file", "statement": "If an included file has \"transclude base\" metadata, its own includes are looked up in that folder, taken relative to the file.", "quantifier": "for every file, folder and disk", "why_tests_cant": "all paths", "anchors": ["src/extensions/includes.c:937-976,1300-1310", "docs/FUTURE_FEATURES.md:72-86"]}
{"id": "C161", "title": "Preferred extensions", "statement": "{{name.*}} includes the first of name.html, name.md, name.txt and name.tex that exists.", "quantifier": "for every name, folder and disk", "why_tests_cant": "all names and disks", "anchors": ["src/extensions/includes.c:857-931", "docs/FUTURE_FEATURES.md:98-100"]}
{"id": "C162", "title": "Includes write inside their buffers", "statement": "Processing includes never writes outside a buffer.", "quantifier": "for every document and disk", "why_tests_cant": "needs files of particular sizes", "anchors": ["src/extensions/includes.c:1088-1101,1522-1536"]}
{"id": "C163", "title": "Includes end", "statement": "Processing ends, even if files include themselves or each other.", "quantifier": "for every document and disk", "why_tests_cant": "no test shows that something always ends", "anchors": ["src/extensions/includes.c:1075-1085", "src/extensions/includes.h"]}
{"id": "C164", "title": "Code includes hold the file", "statement": "<<(file) gives a fenced block that is read as the text of the file.", "quantifier": "for every file", "why_tests_cant": "all contents", "anchors": ["src/extensions/includes.c:1440-1488"]}
{"id": "C165", "title": "Raw includes", "statement": "<<{file} puts the HTML of the file into the document.", "quantifier": "for every file", "why_tests_cant": "all contents", "anchors": ["src/extensions/includes.c:1489-1500", "docs/USER_GUIDE.md:417"]}
{"id": "C166", "title": "Metadata of included files", "statement": "Metadata at the top of an included file is ignored: it does not appear in the document.", "quantifier": "for every file with a header", "why_tests_cant": "all headers", "anchors": ["src/extensions/includes.c:1300-1320", "docs/FUTURE_FEATURES.md:83"]}
{"id": "C167", "title": "Autocorrection touches only misspelt emoji names", "statement": "In unified mode apex_autocorrect_emoji_names leaves every text alone that is no emoji name between colons; in particular times of day, addresses and other numbers between colons stay. (Violated: 12:30:45 becomes 12:a:45. What holds: reading the text from left to right, each pair of colons around 1-48 bytes without blanks is a name; dashes and bars stay, known names are written in their normal form, other names become the nearest name of the table within distance 4, and all other bytes stay.)", "quantifier": "all texts, all tables with a name of one byte; the refutation with the table of the program", "why_tests_cant": "the set of texts with two colons is unbounded; the tests use emoji names only", "anchors": ["src/extensions/emoji.c:678-808", "src/apex.c:4302-4310"]}
{"id": "C168", "title": "Names of emoji are never corrected", "statement": "A name of the table between colons is left as it is by apex_autocorrect_emoji_names. (Violated for names with a dash: :-1:, thumbs down, becomes :+1:, thumbs up. Holds for all names that are their own normal form.)", "quantifier": "all tables, all names, all surrounding text without colons", "why_tests_cant": "861 names in unboundedly many contexts", "anchors": ["src/extensions/emoji.c:539-556", "src/extensions/emoji.c:712-770"]}
{"id": "C169", "title": "The distance of names is the edit distance", "statement": "levenshtein_distance returns the least number of insertions, deletions and changes of a byte that turn one string into the other.", "quantifier": "all pairs of strings", "why_tests_cant": "minimality over all edit sequences of all pairs of strings", "anchors": ["src/extensions/emoji.c:561-604"]}
{"id": "C170", "title": "The nearest and the longest name", "statement": "find_best_emoji_match returns the entry itself for a known name, otherwise the name with the least distance of at most four, of those the shortest, of those the first, and nothing when all are farther; apex_find_emoji_name returns the longest name of an emoji, of those the first.", "quantifier": "all tables, all names, all emoji", "why_tests_cant": "the choice among ties depends on all entries of any table", "anchors": ["src/extensions/emoji.c:193-217", "src/extensions/emoji.c:610-650"]}
{"id": "C171", "title": "Autocorrection stays in its buffer", "statement": "apex_autocorrect_emoji_names never stores outside the buffer of twice the length of the text. (Violated by the empty text: malloc(0) and a stored NUL. Holds for every other text.)", "quantifier": "all texts, all tables with a name of one byte", "why_tests_cant": "growth of the text depends on the distances of arbitrarily many names", "anchors": ["src/extensions/emoji.c:678-690", "src/extensions/emoji.c:800-808"]}
{"id": "C172", "title": "Emoji in terminal text stay in the buffer", "statement": "apex_replace_emoji_text ends and stores only inside its buffer.", "quantifier": "all texts, all tables", "why_tests_cant": "all sequences of names and emoji lengths", "anchors": ["src/extensions/emoji.c:448-534"]}
{"id": "C173", "title": "Emoji names in terminal text are replaced", "statement": "In apex_replace_emoji_text every known name between colons that has an emoji is replaced by it, image names, unknown names and table rulers stay, and all other text stays. (Violated when the emoji need more than twice the text and 16 bytes: of 17 times :a: the last stays. Holds whenever the result is shorter than that, which is so for all texts whose names have more than one byte.)", "quantifier": "all texts, all tables; the bound for all texts with the table of the program", "why_tests_cant": "the failure needs many short names in one text", "anchors": ["src/extensions/emoji.c:448-534", "src/ast_terminal.c:1224"]}
{"id": "C174", "title": "HTML without colons is not touched", "statement": "apex_replace_emoji returns non-empty HTML without a colon unchanged.", "quantifier": "all HTML without colons, all tables", "why_tests_cant": "all documents", "anchors": ["src/extensions/emoji.c:223-449"]}
{"id": "C175", "title": "Emoji names in HTML text become emoji", "statement": "In the text of HTML every known name between colons is replaced by its emoji, unknown names stay, and code is not touched. (Violated: a colon some bytes before a name hides it, as in 12:30:smile:; names with a dash are never found; code is replaced too. What holds: in HTML whose colons are all in text, read from left to right in pairs of colons around 1-48 bytes without blanks, known names become their emoji and all else stays.)", "quantifier": "all HTML whose colons are outside tags, all tables whose emoji fit into three times their names", "why_tests_cant": "all documents with all arrangements of colons", "anchors": ["src/extensions/emoji.c:223-449", "src/apex.c:5520-5528"]}
{"id": "C176", "title": "Emoji names in attributes stay", "statement": "A name between colons inside the value of an HTML attribute is not replaced (changelog). (Violated when the value contains an equals sign or a bracket before the name. Holds for quoted values without = < > & in front of the colon.)", "quantifier": "all HTML whose colons are in such values, all tables", "why_tests_cant": "all attribute values", "anchors": ["src/extensions/emoji.c:70-188", "CHANGELOG.md:682"]}
{"id": "C177", "title": "Emoji in HTML stay in the buffer", "statement": "apex_replace_emoji reads only the HTML and stores only in its buffer of three times the length. (Violated three ways: empty HTML; a colon in an img tag less than fifty bytes before the end of the document; an image emoji whose tag fits while the text behind it does not, when the NUL is stored behind the buffer. Holds without img tags and names of images.)", "quantifier": "all HTML, all tables whose emoji fit into three times their names", "why_tests_cant": "the faults depend on distances and lengths", "anchors": ["src/extensions/emoji.c:223-449"]}
{"id": "C178", "title": "Image emoji become images", "statement": "The name of an image emoji in text becomes an img element, of one em in headers (changelog). (Violated: in short documents the tag does not fit and the name stays; the test for headers looks for <1h> and never finds <h1>. Exact for one name: the tag is written iff it fits in three times the HTML behind the text before; if then the rest does not fit the NUL is stored outside the buffer.)", "quantifier": "all HTML with one name of an image in text, all tables", "why_tests_cant": "depends on the lengths of the document and of the address of the image", "anchors": ["src/extensions/emoji.c:36-66", "src/extensions/emoji.c:380-425", "CHANGELOG.md:653-657"]}
{"id": "C179", "title": "A fenced div becomes an element around its content", "statement": "A line of three or more colons and attributes opens an element, a line of three or more colons alone closes the innermost one, divs still open at the end are closed, and every other line stays (README). (Violated: an end tag that fits the rest of the buffer exactly loses its last byte to a NUL, and the rest of the document is lost. Proved for every document whose HTML is shorter than twice its text.)", "quantifier": "all texts, any number and nesting of divs, any elements and attributes", "why_tests_cant": "documents of any nesting; the cut depends on the exact lengths of all that comes before", "anchors": ["src/extensions/fenced_divs.c:17-167", "src/extensions/fenced_divs.c:491-785", "README.md:83"]}
{"id": "C180", "title": "Fenced divs stay in their buffers", "statement": "apex_process_fenced_divs reads only its text and stores only in its buffer. (Violated: empty text; a document that fills the buffer exactly, whose NUL is stored behind it; an unclosed brace with a bare word, which is read past its end. Holds for every document whose HTML is shorter than twice its text.)", "quantifier": "all texts", "why_tests_cant": "off by one byte for certain lengths only", "anchors": ["src/extensions/fenced_divs.c:491-785", "src/extensions/fenced_divs.c:320-331"]}
{"id": "C181", "title": "Attributes of fenced divs", "statement": "Braces hold #id, .class, key=value and key=\"value\" in any order and number; the element gets the last id, all the classes in their order, and all the pairs; a bare word is a class. (Violated: with an id of 250 bytes the closing quote and all other attributes are lost; an unclosed brace with a bare word is read past its end. Proved for all other lists of items; text in closed braces never over-reads.)", "quantifier": "all attribute texts, lists of items of any length", "why_tests_cant": "all lists of items; one single length of the id fails", "anchors": ["src/extensions/fenced_divs.c:176-453"]}
{"id": "C182", "title": "Text without opening fences is unchanged by fenced divs", "statement": "If no line of a text opens a div, apex_process_fenced_divs returns the text unchanged, with its line ends, also when it has closing fences.", "quantifier": "all nonempty texts", "why_tests_cant": "all texts and line ends", "anchors": ["src/extensions/fenced_divs.c:491-785"]}
{"id": "C183", "title": "Fences in code blocks are code", "statement": "A fenced div in a fenced code block is code and stays. (Violated: code blocks are not looked at and the fence in the code becomes a div.)", "quantifier": "all texts with code blocks", "why_tests_cant": "settled by a counterexample in the model of the function", "anchors": ["src/extensions/fenced_divs.c:525-560", "src/apex.c:4533-4540"]}
{"id": "C184", "title": "HTML without custom elements is unchanged", "statement": "apex_postprocess_fenced_divs_html returns HTML without the marker of custom elements unchanged.", "quantifier": "all HTML", "why_tests_cant": "all HTML", "anchors": ["src/extensions/fenced_divs.c:795-925"]}
{"id": "C185", "title": "Custom elements get their names", "statement": "In the HTML every div that stands for a custom element gets the name of the element in its start tag and in the end tag that belongs to it, with other divs inside (changelog). (Violated: a custom element in a custom element is copied without being looked at and keeps the internal marker. Proved for all HTML whose custom elements, with names of up to 33 bytes, hold no further ones.)", "quantifier": "all HTML with any number of custom elements and balanced divs in them", "why_tests_cant": "any number of elements with any nesting of divs", "anchors": ["src/extensions/fenced_divs.c:795-925", "src/apex.c:5205-5208", "CHANGELOG.md:661"]}
{"id": "C186", "title": "The second pass writes text once", "statement": "The text around a custom element is in the output once. (Violated: with a name of 128 or more bytes the text before the element is written twice. Proved for names of up to 33 bytes.)", "quantifier": "all text around an element", "why_tests_cant": "depends on the length of a name", "anchors": ["src/extensions/fenced_divs.c:815-850"]}
{"id": "C187", "title": "The second pass stays in its buffer", "statement": "apex_postprocess_fenced_divs_html stores only in its buffer. (Violated: the name counts twice in the output but the room for the start tag is checked by the attributes only; thirteen elements with names of 127 bytes write past the end. Holds for all HTML with names of up to 33 bytes.)", "quantifier": "all HTML whose names have at most 33 bytes", "why_tests_cant": "the spare 1024 bytes hide the fault in small documents", "anchors": ["src/extensions/fenced_divs.c:795-925"]}
{"id": "C188", "title": "Special markers are replaced and all other text stays", "statement": "apex_process_special_markers replaces every <!--BREAK-->, {::pagebreak /}, <!--PAUSE:n--> and every ^ on a line of its own, and leaves every other byte (README, user guide). (Violated: page breaks take 189 bytes while the buffer is four times the text, and bytes that do not fit are dropped; a document ^ is shown as nothing. Proved for all texts without {index} and blanks at the front whose result is shorter than four times the text.)", "quantifier": "all texts with any number of markers", "why_tests_cant": "any number and order of markers; the loss depends on lengths", "anchors": ["src/extensions/special_markers.c:16-193", "README.md:87"]}
{"id": "C189", "title": "A page break in a document, exactly", "statement": "For every text with one page break as its only marker: the result is complete unless the div fits the buffer of four times the text and the text behind it does not; then bytes are dropped and the NUL is stored outside the buffer. With the break at the front this is so for 36 to 47 bytes of text.", "quantifier": "all texts with one page break", "why_tests_cant": "the faulty lengths lie between lengths that work", "anchors": ["src/extensions/special_markers.c:72-98", "src/extensions/special_markers.c:182-193"]}
{"id": "C190", "title": "Special markers stay in the buffer", "statement": "apex_process_special_markers reads only its text, stores only in its buffer and does not overflow an int. (Violated: empty text; a page break before some forty bytes; {index} at the end of the text, after which reading continues behind the NUL; a pause above 2147483647. Holds for every other text without page breaks.)", "quantifier": "all texts without page breaks", "why_tests_cant": "needs the balance of the buffer over all texts", "anchors": ["src/extensions/special_markers.c:16-193"]}
{"id": "C191", "title": "An end-of-block marker on its own line separates", "statement": "A ^ that is alone on its line, with blanks around it, becomes a separating paragraph. (Violated: on the first line of the document with blanks before it, it stays. Proved behind any line of text.)", "quantifier": "all texts around a marker", "why_tests_cant": "all texts around the marker", "anchors": ["src/extensions/special_markers.c:30-70", "docs/USER_GUIDE.md:497-505"]}
{"id": "C192", "title": "{index} places the index", "statement": "{index} becomes <!--INDEX--> wherever it stands (changelog). (Violated everywhere: the comparison is of eight bytes with the NUL, so that in the middle of any text the marker stays, and at the end of any text reading continues behind the NUL.)", "quantifier": "all texts with {index} as their only marker", "why_tests_cant": "a test passes or fails on one text; the violation is shown for all of them", "anchors": ["src/extensions/special_markers.c:155-180", "CHANGELOG.md:235"]}
{"id": "C193", "title": "Markers in code stay", "statement": "Markers in a fenced code block are code and stay. (Violated: code is not looked at.)", "quantifier": "all texts with code blocks", "why_tests_cant": "settled by a counterexample in the model of the function", "anchors": ["src/extensions/special_markers.c:29-190", "src/apex.c:4270-4280"]}
{"id": "C194", "title": "Text without special markers is unchanged", "statement": "A nonempty text without markers is returned unchanged.", "quantifier": "all nonempty texts without markers that do not start with a blank", "why_tests_cant": "all texts", "anchors": ["src/extensions/special_markers.c:16-193"]}
{"id": "C195", "title": "Markdown in HTML elements is rendered in place", "statement": "Each element with markdown=1, block or span and nonempty content is replaced by its start tag without the attribute, its rendered content (nested elements first; the paragraph taken off for span), its end tag and a newline; everything else is unchanged.", "quantifier": "all documents of such elements, all renderings of the content", "why_tests_cant": "all nestings, names, attribute lists and renderings; the result is written into a buffer of twice the input and parts that do not fit are left out without notice", "anchors": ["src/extensions/html_markdown.c:143-408", "src/apex.c:4543-4552", "docs/FUTURE_FEATURES.md:296-312"]}
{"id": "C196", "title": "Markdown in HTML: no store outside of the buffers", "statement": "Processing never stores outside of the output buffer (twice the input) or the buffer of the start tag (2048 bytes).", "quantifier": "all texts and all renderings", "why_tests_cant": "depends on exact lengths: an overrun by one byte shows only when the output fills the buffer exactly", "anchors": ["src/extensions/html_markdown.c:150-157", "src/extensions/html_markdown.c:255-330", "src/extensions/html_markdown.c:375-408"]}
{"id": "C197", "title": "The markdown attribute is taken out and the others stay", "statement": "The start tag of a rendered element is the given one without its markdown attribute, the other attributes in the same order.", "quantifier": "all names, attribute lists, values and contents", "why_tests_cant": "all attribute lists", "anchors": ["src/extensions/html_markdown.c:255-327", "CHANGELOG.md:863-874"]}
{"id": "C198", "title": "Text whose tags do not have markdown= is unchanged", "statement": "A nonempty text in which nothing between < and > has markdown= is returned unchanged, byte for byte.", "quantifier": "all nonempty texts", "why_tests_cant": "all texts", "anchors": ["src/extensions/html_markdown.c:20-101", "src/extensions/html_markdown.c:143-190"]}
{"id": "C199", "title": "Only elements with the attribute are rendered", "statement": "An element without a markdown attribute is left alone, whatever the values of its attributes are.", "quantifier": "all start tags", "why_tests_cant": "all attribute values", "anchors": ["src/extensions/html_markdown.c:49-92"]}
{"id": "C200", "title": "markdown=\"0\" and unknown values leave the element alone", "statement": "An element whose markdown attribute has another value than 1, block or span is copied as it is, with its content, which may have elements of its own with the attribute.", "quantifier": "all values, names, attributes, contents and surrounding texts", "why_tests_cant": "all contents, including nested elements of the same name", "anchors": ["src/extensions/html_markdown.c:214-228", "src/extensions/html_markdown.c:395-404", "docs/FUTURE_FEATURES.md:296-312"]}
{"id": "C201", "title": "An inline element does not break its line", "statement": "An element with markdown=\"span\" in a line stays in its line: the text behind its end tag follows without a newline.", "quantifier": "all inline elements and surrounding texts", "why_tests_cant": "the theorem shows that it never holds", "anchors": ["src/extensions/html_markdown.c:332-345", "src/extensions/html_markdown.c:380-394"]}
{"id": "C202", "title": "Tags in code are left alone", "statement": "A tag with the attribute inside a code block or code span is shown as it is written.", "quantifier": "all texts in front, all elements", "why_tests_cant": "the theorem shows that the text in front never matters", "anchors": ["src/extensions/html_markdown.c:20-101", "src/apex.c:4543-4552"]}
{"id": "C203", "title": "Rules become page breaks", "statement": "With --hr-page-break every <hr tag up to its first > is replaced by the page break block, an unclosed tag and everything between the tags stay, and the output buffer is large enough.", "quantifier": "all HTML texts", "why_tests_cant": "all numbers and positions of rules, all buffer fillings", "anchors": ["src/apex.c:3423-3531", "man/apex.1.md:172-206"]}
{"id": "C204", "title": "A rule is replaced as a whole, and only rules are", "statement": "The whole hr tag is replaced, also when an attribute contains a >, and tags of other elements are not touched.", "quantifier": "all HTML texts", "why_tests_cant": "all attributes and element names", "anchors": ["src/apex.c:3468-3500"]}
{"id": "C205", "title": "Code without a language gets the class poetry", "statement": "With --code-is-poetry a code block without a language gets class=\"poetry\" and no block gets two class attributes.", "quantifier": "all HTML texts", "why_tests_cant": "whether a block is marked depends on every later block of the document", "anchors": ["src/apex.c:2969-3138", "man/apex.1.md:172-206"]}
{"id": "C206", "title": "Only paragraphs of blanks are removed", "statement": "The removal of empty paragraphs drops exactly the <p> paragraphs that hold nothing but white space and zero-width spaces, and copies all other bytes.", "quantifier": "all HTML texts", "why_tests_cant": "all contents of paragraphs", "anchors": ["src/apex.c:2342-2405"]}
{"id": "C207", "title": "No paragraph without text remains", "statement": "After the removal of empty paragraphs no paragraph without visible text is left.", "quantifier": "all HTML texts", "why_tests_cant": "all contents and attributes of paragraphs", "anchors": ["src/apex.c:2342-2405"]}
{"id": "C208", "title": "The title is the text of the first h1", "statement": "With --title-from-h1 the title is the text of the first h1 without its tags and without white space around it, and there is none when that text is empty.", "quantifier": "all HTML texts", "why_tests_cant": "all headings with all nestings of tags", "anchors": ["src/apex.c:3146-3198", "man/apex.1.md:172-206"]}
{"id": "C209", "title": "One page break before the footnotes", "statement": "With --page-break-before-footnotes the page break block is put directly in front of the first footnote section, everything else stays, and a document without footnotes does not change.", "quantifier": "all HTML texts", "why_tests_cant": "all texts around the section", "anchors": ["src/apex.c:5271-5300"]}
{"id": "C210", "title": "The footnote prefix is eight hexadecimal digits", "statement": "The prefix computed from a document for its footnote ids always has eight lower-case hexadecimal digits.", "quantifier": "all documents", "why_tests_cant": "all hash values, short and long ones", "anchors": ["src/apex.c:3204-3222", "man/apex.1.md:172-206"]}
{"id": "C211", "title": "Different documents get different footnote prefixes", "statement": "Two documents that differ get different prefixes, so that their footnotes do not collide when both are put on one page.", "quantifier": "all pairs of documents", "why_tests_cant": "which digits of the hash are kept decides about all pairs at once", "anchors": ["src/apex.c:3204-3222", "man/apex.1.md:172-206", "README.md:391-400"]}
{"id": "C212", "title": "All footnote ids and links get the prefix, nothing else changes", "statement": "Behind every id=\"fn-, id=\"fnref-, href=\"#fn- and href=\"#fnref- the prefix and a hyphen are inserted, all other bytes are copied, and the buffer is large enough.", "quantifier": "all prefixes and HTML texts", "why_tests_cant": "the buffer is outrun only by particular numbers of footnotes", "anchors": ["src/apex.c:3224-3415"]}
{"id": "C213", "title": "Footnote links still find their targets", "statement": "A link to a footnote and the footnote with that label carry the same new label after the prefixes are added.", "quantifier": "all labels without quote and equals sign, all HTML texts that do not end in a key", "why_tests_cant": "all labels and all texts around link and target", "anchors": ["src/apex.c:3224-3415"]}
{"id": "C214", "title": "What becomes a hashtag", "statement": "With --hashtags, in every line that is not indented code, # with a letter or digit at the start of the line or behind a space or tab, up to the next ender and with a closing #, is wrapped in a span of the right class; all other bytes are copied and the buffer is large enough.", "quantifier": "all texts, both classes", "why_tests_cant": "all texts, all numbers of tags against the size of the buffer", "anchors": ["src/apex.c:4554-4726", "man/apex.1.md:189-194"]}
{"id": "C215", "title": "Hashtags leave code alone", "statement": "Nothing in a code block or a code span is taken for a hashtag.", "quantifier": "all texts", "why_tests_cant": "all lines around and in the code", "anchors": ["src/apex.c:4568-4610"]}
{"id": "C216", "title": "Every hashtag is found by itself", "statement": "Every #tag in a line that is no code becomes one span of its own.", "quantifier": "all texts", "why_tests_cant": "all indentations and all bytes between tags", "anchors": ["src/apex.c:4568-4650", "man/apex.1.md:189-194"]}
{"id": "C217", "title": "The span of a hashtag is well nested", "statement": "The span around a hashtag holds no end tag of an element that was opened in front of it.", "quantifier": "all texts", "why_tests_cant": "all markup around tags", "anchors": ["src/apex.c:4630-4690"]}
{"id": "C218", "title": "A text without # does not change", "statement": "With --hashtags a text without # is passed on byte by byte.", "quantifier": "all texts without #", "why_tests_cant": "all texts", "anchors": ["src/apex.c:4554-4726"]}
{"id": "C219", "title": "Exactly what --widont changes, within the buffer", "statement": "In every heading the spaces and tabs from the start of its last words on become non-breaking spaces, all other bytes are copied, and the buffer is large enough.", "quantifier": "all HTML texts", "why_tests_cant": "the buffer is outrun only by particular numbers of spaces and bytes behind the heading", "anchors": ["src/apex.c:3538-3956", "man/apex.1.md:172-175"]}
{"id": "C220", "title": "The last line of a heading is not short", "statement": "With --widont the part of a heading behind its last breakable space has more than ten bytes or is the whole heading.", "quantifier": "all headings", "why_tests_cant": "all words, spaces and tags of headings", "anchors": ["src/apex.c:3538-3956", "man/apex.1.md:172-175"]}
{"id": "C221", "title": "Only short words are joined", "statement": "With --widont words are joined only when their combined length is ten characters or less.", "quantifier": "all headings", "why_tests_cant": "all words", "anchors": ["src/apex.c:3637-3712", "man/apex.1.md:172-175"]}
{"id": "C222", "title": "--widont leaves HTML without headings alone", "statement": "HTML without h1 to h6 is passed on byte by byte.", "quantifier": "all HTML texts without headings", "why_tests_cant": "all texts", "anchors": ["src/apex.c:3538-3956"]}
{"id": "C223", "title": "Standalone document, exactly", "statement": "apex_wrap_html_document returns, for every content, title, list of style sheets, highlighter, header, footer and language, the doctype, head, style part, header, body, content, footer and closing tags in that order, with the content whole; it writes nothing beyond its buffer and never falls back to the bare content.", "quantifier": "all content, titles, lists of style sheet paths, header, footer and language strings, with and without a highlighter", "why_tests_cant": "The buffer is sized by estimates (8000 bytes for the highlighting style, 50 per link, 4096 for the rest); that they always suffice is a statement over all lengths.", "anchors": ["src/apex.c:5998-6465"]}
{"id": "C224", "title": "Closing tags of the content are not doubled", "statement": "Content ending in </body></html> is stripped of these tags before it is wrapped, so that the document has them once.", "quantifier": "all contents and white space between the tags", "why_tests_cant": "A test shows one ending; that the backward search can never succeed is a statement about all contents.", "anchors": ["src/apex.c:6004-6053"]}
{"id": "C225", "title": "Title and language cannot leave their place", "statement": "The text between <title> and the next </title> of the document is the title, and the value of the lang attribute is the language of the metadata.", "quantifier": "all titles and languages", "why_tests_cant": "The values come from the document; whether one of them can end its element early concerns all strings.", "anchors": ["src/apex.c:6097-6125"]}
{"id": "C226", "title": "The default style is CSS", "statement": "A document without style sheets carries a default style that gives tables a width of 100%; the template adds no stray percent sign.", "quantifier": "all documents without style sheets; all parts without percent signs", "why_tests_cant": "Tests look for the style element, not for the validity of what memcpy has put there for every document.", "anchors": ["src/apex.c:6358-6411"]}
{"id": "C227", "title": "Scripts at the end", "statement": "In standalone mode the script tags come, one per line and without the empty ones, after the footer of the metadata and before </body>; in snippet mode they are appended to the fragment on a line of their own.", "quantifier": "all lists of script tags, footers and fragments", "why_tests_cant": "The four combinations of footer and scripts with empty strings, and fragments with and without a final newline, for all strings.", "anchors": ["src/apex.c:5710-5740", "src/apex.c:5776-5807", "src/apex.c:5908-5932"]}
{"id": "C228", "title": "Embedded style sheets", "statement": "With --embed-css every style sheet link of the document is replaced by a style element with the content of its file; a sheet that cannot be read, is empty or whose link line exceeds 2047 bytes stays a link.", "quantifier": "all lists of style sheets, file contents and documents", "why_tests_cant": "The link is searched in the whole text, in reverse order, after other sheets have been put in; and the array of a metadata sheet is read after it has been freed, which a test may survive.", "anchors": ["src/apex.c:5758-5907"]}
{"id": "C229", "title": "The style sheet array of the caller", "statement": "The library frees only arrays of its own and reads no array it has freed, whatever the options and the metadata say about style sheets.", "quantifier": "all options, metadata and documents", "why_tests_cant": "Freed memory usually still holds its contents, so tests pass; the exact set of bad options is a statement about all of them.", "anchors": ["src/apex.c:5758-5830"]}
{"id": "C230", "title": "Title from the first heading", "statement": "With title_from_h1 a standalone document without a title has as its title the visible text of the first level-one heading, and the default title when there is none.", "quantifier": "all rendered documents and options", "why_tests_cant": "Headings with attributes, nested tags and white space of any kind.", "anchors": ["src/apex.c:5745-5754", "src/apex.c:3423-3531"]}
{"id": "C231", "title": "Metadata is taken from the head of the text only", "statement": "Extracting metadata leaves an end of the document that starts at the start of a line (or nothing), and leaves a document without metadata as it is.", "quantifier": "all texts, all outcomes of the YAML library", "why_tests_cant": "Three parsers compute the byte offset in different ways; tests look at a few documents.", "anchors": ["src/extensions/metadata.c:704-736", "src/extensions/metadata.c:329-397", "src/extensions/metadata.c:400-697"]}
{"id": "C232", "title": "MultiMarkdown metadata block", "statement": "A block of 'Key: value' lines closed by a blank line gives exactly these pairs and exactly the text after the blank line; without a blank line the text starts at the first line without a colon.", "quantifier": "all lists of plain pairs and all bodies", "why_tests_cant": "Any number of pairs, any body, any library.", "anchors": ["src/extensions/metadata.c:400-655"]}
{"id": "C233", "title": "Nothing but metadata is taken out", "statement": "Every line removed from the head of the document is the line of an item (or the blank line that ends the block).", "quantifier": "all texts", "why_tests_cant": "A heading before the block and a last line without newline are lost; both hold for every heading and every line, not for some tested ones.", "anchors": ["src/extensions/metadata.c:400-655"]}
{"id": "C234", "title": "The whole value", "statement": "The value of an item is the whole text of its line after the colon.", "quantifier": "all keys and values", "why_tests_cant": "Needs lines longer than 1023 bytes, and a statement for all lengths.", "anchors": ["src/extensions/metadata.c:406-415"]}
{"id": "C235", "title": "URLs as values", "statement": "A URL is an admissible metadata value under every key.", "quantifier": "all keys and values with ://", "why_tests_cant": "Depends on the length of the key, which no test varies.", "anchors": ["src/extensions/metadata.c:560-614"]}
{"id": "C236", "title": "YAML front matter without the library", "statement": "Front matter between --- and --- or ... gives the pairs of its lines with quotes removed and the text after the closing line; an unclosed block is no front matter.", "quantifier": "all lists of YAML pairs and all bodies", "why_tests_cant": "All quotations and closings; the unclosed case gives items and leaves the text.", "anchors": ["src/extensions/metadata.c:329-397"]}
{"id": "C237", "title": "YAML front matter with the library", "statement": "The library is given exactly the block, and nothing after the closing line is lost.", "quantifier": "all blocks, bodies and libraries", "why_tests_cant": "A block closed by ... in front of a later --- loses the text in between; needs a statement for every library.", "anchors": ["src/extensions/metadata.c:251-322"]}
{"id": "C238", "title": "Pandoc title block", "statement": "Up to three % lines give title, author and date in this order; an empty line skips its key; the text is what follows.", "quantifier": "all title lines and bodies", "why_tests_cant": "All combinations of present and empty lines and all bodies.", "anchors": ["src/extensions/metadata.c:661-697"]}
{"id": "C239", "title": "Front matter written by the command", "statement": "The front matter that the command writes from merged metadata stays within its buffer, and reading it back gives the metadata and the text.", "quantifier": "all metadata and documents", "why_tests_cant": "The buffer size depends on all keys and values; the round trip is a statement about writer and parser.", "anchors": ["cli/main.c:3128-3215"]}
{"id": "C240", "title": "The highlighter is given the code itself", "statement": "The code passed to an external highlighter is the code of the block before HTML escaping, byte for byte.", "quantifier": "all code", "why_tests_cant": "Code that contains references such as &lt; itself must survive; only a proof over all strings settles that.", "anchors": ["src/extensions/syntax_highlight.c:51-85"]}
{"id": "C241", "title": "Highlighted documents", "statement": "Every code block becomes the output of the highlighter for its language and code; a block on which it fails, or without a language in language-only mode, stays as it is; everything else is unchanged.", "quantifier": "all documents, languages, highlighters and outputs", "why_tests_cant": "A later block is lost only when earlier output has almost filled a buffer; the sizes at which that happens are a statement about all sizes.", "anchors": ["src/extensions/syntax_highlight.c:254-481"]}
{"id": "C242", "title": "Memory of highlighting", "statement": "No byte is written beyond the output buffer whatever the highlighter gives.", "quantifier": "all documents and outputs", "why_tests_cant": "The overflow is one byte at one exact size.", "anchors": ["src/extensions/syntax_highlight.c:254-481"]}
{"id": "C243", "title": "The language is an argument", "statement": "The language of a code block reaches the highlighter as one argument and can not make the shell run anything else.", "quantifier": "all languages", "why_tests_cant": "Security: a statement about all languages an author of a document can write.", "anchors": ["src/extensions/syntax_highlight.c:195-249"]}
{"id": "C244", "title": "The output of the highlighter is read whole", "statement": "However the operating system cuts the output into reads, all of it is kept and the buffer is never left.", "quantifier": "all sequences of reads", "why_tests_cant": "The pieces depend on scheduling.", "anchors": ["src/extensions/syntax_highlight.c:135-185"]}
{"id": "C245", "title": "The exchange with the highlighter ends", "statement": "Writing the code to the highlighter and reading its output always come to an end, for code of any size.", "quantifier": "all sizes, all interleavings of parent and program", "why_tests_cant": "A deadlock depends on pipe sizes and on how the program reads; tests use small code.", "anchors": ["src/extensions/syntax_highlight.c:90-185"]}
{"id": "C246", "title": "Index entries are replaced by consecutively numbered marks and registered", "statement": "Processing a text for index entries never writes beyond its buffer; either the text is unchanged, or it is the text with some entries replaced by marks <!--IDX:idxref-N--> numbered one after the other from the registry's counter, and exactly those entries are registered, with number and byte position.", "quantifier": "all texts, all combinations of syntaxes, all registries", "why_tests_cant": "Tests look at a few entries; the buffer is grown by a formula whose every overflow depends on where the entries stand.", "anchors": ["src/extensions/index.c:449-574"]}
{"id": "C247", "title": "Documented index forms register what is written", "statement": "In a text in which everything that begins like an entry has one of the documented forms ((!term), (!!term, sub), word{^}, [term]{^}, {i: term}, {i: \"term!sub\"}), exactly those entries are replaced and each is registered with the item, the subitem and the rank written.", "quantifier": "all texts built from the forms", "why_tests_cant": "The parsers look backwards over the text and share a loop; only finitely many neighbourhoods can be tried.", "anchors": ["src/extensions/index.c:49-404", "src/extensions/index.c:449-574"]}
{"id": "C248", "title": "Code is not searched for index entries", "statement": "Text inside a code block is left alone by the index pass. (False: a condition like (!ready) in a fence becomes an index entry, in unified mode by default.)", "quantifier": "all code blocks around any word", "why_tests_cant": "Absence of replacement in arbitrary code cannot be enumerated.", "anchors": ["src/extensions/index.c:449-574", "src/apex.c:4186-4196"]}
{"id": "C249", "title": "Index terms are trimmed and not blank", "statement": "Every registered term is non-empty, without white space around it. (False: leading space is kept, and blank or empty terms are registered; exact for the end of terms of the mmark and TextIndex syntaxes.)", "quantifier": "all texts and registries", "why_tests_cant": "Quantifies over every text in which a term can appear.", "anchors": ["src/extensions/index.c:29-43"]}
{"id": "C250", "title": "word{^} indexes the word", "statement": "A word followed by {^} registers that word as the term. (False: all words before it on the line, up to punctuation, become the term.)", "quantifier": "all pairs of words; all words behind a byte that ends a phrase; all bracketed terms", "why_tests_cant": "The backward scan depends on unbounded text before the brace.", "anchors": ["src/extensions/index.c:202-234"]}
{"id": "C251", "title": "Rendering index marks stays inside the HTML", "statement": "Turning marks into anchors reads only the HTML and writes only its buffer. (False: an unfinished mark is read beyond the end, empty HTML is written to a buffer of size 0; safe for all other HTML.)", "quantifier": "all HTML strings", "why_tests_cant": "Out-of-bounds reads are silent, and the inputs that cause them are unbounded.", "anchors": ["src/extensions/index.c:579-646"]}
{"id": "C252", "title": "HTML outside index marks is unchanged", "statement": "Every mark becomes one anchor and all other HTML is copied unchanged. (False: a comment that begins like a mark and is not one loses its text; true when <!--IDX: begins only marks.)", "quantifier": "all HTML strings", "why_tests_cant": "Quantifies over all the HTML around marks.", "anchors": ["src/extensions/index.c:579-646"]}
{"id": "C253", "title": "Every link of the index has exactly one target", "statement": "When the marks left by the entries of a text without marks of its own are rendered, each registered entry has exactly one anchor with its name, and there are no other anchors from marks; the names are all different.", "quantifier": "all texts, syntaxes and registries", "why_tests_cant": "A correspondence between two passes over arbitrarily many entries.", "anchors": ["src/extensions/index.c:449-574", "src/extensions/index.c:579-646"]}
{"id": "C254", "title": "The comparison of index entries is a consistent order", "statement": "The comparison given to qsort is antisymmetric and transitive and orders entries alphabetically without regard to case, entries without subitem first.", "quantifier": "all entries", "why_tests_cant": "qsort's behaviour is undefined if any triple of entries violates the contract.", "anchors": ["src/extensions/index.c:651-670"]}
{"id": "C255", "title": "The index shows every entry once, in order, as text", "statement": "The index has exactly one line per entry, in alphabetical order, with its link, and terms are shown as text. (False: terms are not escaped, are cut after 2042 bytes, and terms kept with a leading space come first; exact for other terms.)", "quantifier": "all lists of entries and all ways qsort may sort them", "why_tests_cant": "Quantifies over all registries and all sorted arrangements.", "anchors": ["src/extensions/index.c:693-849"]}
{"id": "C256", "title": "Each letter heads one group of the index", "statement": "With grouping by letter, each letter has one group, which holds exactly the entries of that letter in order. (False for items that begin with punctuation; exact when every item begins with a letter or digit.)", "quantifier": "all sorted lists of entries", "why_tests_cant": "Groups are opened and closed by a loop over arbitrarily many entries.", "anchors": ["src/extensions/index.c:675-800"]}
{"id": "C257", "title": "Where the index goes", "statement": "The index replaces the first <!--INDEX-->; without one it goes before the first </body>, without that to the end; everything else is unchanged.", "quantifier": "all HTML strings and indexes", "why_tests_cant": "Quantifies over all documents.", "anchors": ["src/extensions/index.c:854-967"]}
{"id": "C258", "title": "Relaxed tables: memory", "statement": "The pass that adds missing table separators writes nothing beyond its buffers.", "quantifier": "all texts", "why_tests_cant": "Quantifies over all documents; the buffer is checked before some writes only and grows once.", "anchors": ["src/extensions/relaxed_tables.c:272-1076", "src/apex.c:4357-4395"]}
{"id": "C259", "title": "Relaxed tables: lines stay in place", "statement": "The pass that adds missing table separators keeps every line of the document in its place; only separators are added.", "quantifier": "all documents", "why_tests_cant": "Quantifies over all documents.", "anchors": ["src/extensions/relaxed_tables.c:272-1076"]}
{"id": "C260", "title": "Relaxed tables: blank lines separate", "statement": "A row before a blank line and a row behind it do not become one table.", "quantifier": "all documents", "why_tests_cant": "Quantifies over all documents.", "anchors": ["src/extensions/relaxed_tables.c:305-455"]}
{"id": "C261", "title": "Relaxed tables: existing separators", "statement": "A table that already has a separator gets no other.", "quantifier": "all tables", "why_tests_cant": "Quantifies over all tables.", "anchors": ["src/extensions/relaxed_tables.c:457-560"]}
{"id": "C262", "title": "Relaxed tables: code", "statement": "Lines in a fence are not changed by the pass that adds missing table separators.", "quantifier": "all lines in fences", "why_tests_cant": "Quantifies over all documents.", "anchors": ["src/extensions/relaxed_tables.c:272-1076", "src/apex.c:4357-4395"]}
{"id": "C263", "title": "Relaxed tables: columns", "statement": "The separator that is added has as many cells as the row it is made for, so that the lines become a table.", "quantifier": "all rows", "why_tests_cant": "Quantifies over all rows.", "anchors": ["src/extensions/relaxed_tables.c:21-77", "src/extensions/relaxed_tables.c:159-201"]}
{"id": "C264", "title": "Tables without a header: memory", "statement": "The pass that adds missing table headers writes nothing beyond its buffers.", "quantifier": "all texts", "why_tests_cant": "Quantifies over all documents.", "anchors": ["src/extensions/relaxed_tables.c:1082-1230", "src/extensions/relaxed_tables.c:234-267"]}
{"id": "C265", "title": "Tables without a header: where", "statement": "An empty header is added before every separator that has data behind it and no row before it; nothing else changes.", "quantifier": "all documents", "why_tests_cant": "Quantifies over all documents.", "anchors": ["src/extensions/relaxed_tables.c:1082-1230", "src/apex.c:4397-4435"]}
{"id": "C266", "title": "Tables without a header: columns", "statement": "The header that is added has as many cells as the separator below it, so that the lines become a table.", "quantifier": "all separators", "why_tests_cant": "Quantifies over all separators.", "anchors": ["src/extensions/relaxed_tables.c:234-267", "src/extensions/relaxed_tables.c:21-77"]}
{"id": "C267", "title": "Lists with letters: memory", "statement": "The pass that turns lists with letters into numbered lists writes only in its buffer and converts only numbers that fit an int.", "quantifier": "all documents", "why_tests_cant": "Quantifies over all documents; writing behind a buffer need not be visible in a run.", "anchors": ["src/apex.c:2005-2189", "src/apex.c:4291-4300"]}
{"id": "C268", "title": "Lists with letters: other text", "statement": "A document that is not empty and has no line that starts with a letter and a dot passes through unchanged.", "quantifier": "all documents without such lines", "why_tests_cant": "Quantifies over all documents.", "anchors": ["src/apex.c:2005-2189"]}
{"id": "C269", "title": "Lists with letters: signs", "statement": "Every run of items whose letters follow one another gets a sign before it, its items are numbered from 1, and everything else stays as it is.", "quantifier": "all documents", "why_tests_cant": "Quantifies over all documents.", "anchors": ["src/apex.c:2057-2125"]}
{"id": "C270", "title": "Lists with letters: the letters", "statement": "An item is shown with the letter it is written with.", "quantifier": "all lists with letters", "why_tests_cant": "Quantifies over all lists.", "anchors": ["src/apex.c:2057-2125", "src/apex.c:2199-2337"]}
{"id": "C271", "title": "Lists with letters: longer items", "statement": "An item with a second paragraph does not end the list; the item behind it goes on counting.", "quantifier": "all lists with letters", "why_tests_cant": "Quantifies over all lists.", "anchors": ["src/apex.c:2127-2175"]}
{"id": "C272", "title": "Lists with letters: code", "statement": "Lines between code fences are not changed by the pass for lists with letters.", "quantifier": "all fenced code", "why_tests_cant": "Quantifies over all documents.", "anchors": ["src/apex.c:2005-2189", "src/apex.c:4291-4300"]}
{"id": "C273", "title": "Lists with letters: no sign on the page", "statement": "No sign that the first pass inserted is left on the page, the lists behind the signs are styled, and nothing else on the page changes.", "quantifier": "all documents and pages", "why_tests_cant": "Quantifies over all documents.", "anchors": ["src/apex.c:2199-2337", "src/apex.c:5632-5641"]}
{"id": "C274", "title": "Lists with letters: memory of the page", "statement": "The pass over the page reads no byte behind its end and writes only in its buffer.", "quantifier": "all pages", "why_tests_cant": "Quantifies over all pages; reading behind a buffer need not be visible in a run.", "anchors": ["src/apex.c:2199-2337"]}
{"id": "C275", "title": "Adjacent bars: memory", "statement": "The pass that marks adjacent bars in table rows writes nothing beyond its buffer.", "quantifier": "all documents", "why_tests_cant": "Quantifies over all documents; writing behind a buffer need not be visible in a run.", "anchors": ["src/apex.c:1778-1998", "src/apex.c:4438-4475"]}
{"id": "C276", "title": "Adjacent bars: result", "statement": "<< is put between every two adjacent bars outside fences; everything else and every line end stays, and a missing last line end is added.", "quantifier": "all documents", "why_tests_cant": "Quantifies over all documents.", "anchors": ["src/apex.c:1778-1998", "src/apex.c:4438-4475"]}
{"id": "C277", "title": "Adjacent bars: text that is no table", "statement": "A line that belongs to no table, with || in its text or in a code span, is not changed by the pass for tables.", "quantifier": "all lines outside tables", "why_tests_cant": "Quantifies over all lines.", "anchors": ["src/apex.c:1841-1852"]}
{"id": "C278", "title": "Adjacent bars: code", "statement": "Lines between code fences are not changed by the pass that marks adjacent bars.", "quantifier": "all fenced code", "why_tests_cant": "Quantifies over all documents.", "anchors": ["src/apex.c:1823-1839"]}
{"id": "C279", "title": "Adjacent bars: cells", "statement": "A row keeps its cells and their text; only empty cells between two bars are marked.", "quantifier": "all rows", "why_tests_cant": "Quantifies over all rows.", "anchors": ["src/apex.c:1852-1935"]}
{"id": "C280", "title": "Adjacent bars: once is enough", "statement": "The pass that marks adjacent bars changes nothing in its own result.", "quantifier": "all documents", "why_tests_cant": "Quantifies over all documents.", "anchors": ["src/apex.c:1778-1998"]}
{"id": "C281", "title": "The pass for table captions never leaves its buffer", "statement": "For every text, apex_preprocess_table_captions writes at most 2*len+1 bytes into the buffer it allocates once and never checks.", "quantifier": "for all texts", "why_tests_cant": "Tests show a handful of documents; the statement is about every text, every number of lines and every combination of the pass's flags.", "anchors": ["src/apex.c:1230-1630", "src/apex.c:4476-4517"]}
{"id": "C282", "title": "Blank lines of a text without tables are kept", "statement": "A text without tables and captions comes out of the pass for table captions as it went in, all its blank lines included (they count inside indented code).", "quantifier": "for all lines", "why_tests_cant": "Tests show a handful of documents; the statement is about every text, every number of lines and every combination of the pass's flags.", "anchors": ["src/apex.c:1230-1630", "src/apex.c:4476-4517"]}
{"id": "C283", "title": "A line Table: caption behind a table becomes its caption", "statement": "A line 'Table: caption' or 'table: caption' behind a table, with any number of blank lines between, becomes a paragraph '[caption]' with its attributes behind it, and the text before and behind is unchanged.", "quantifier": "for all texts before and behind, rows, captions and attributes", "why_tests_cant": "Tests show a handful of documents; the statement is about every text, every number of lines and every combination of the pass's flags.", "anchors": ["src/apex.c:1230-1630", "src/apex.c:4476-4517"]}
{"id": "C284", "title": "The word table: inside a line is not a caption", "statement": "A line of text or a row of a table that merely contains 'table:' (vegetable:, timetable:) is left in one piece.", "quantifier": "for all lines", "why_tests_cant": "Tests show a handful of documents; the statement is about every text, every number of lines and every combination of the pass's flags.", "anchors": ["src/apex.c:1230-1630", "src/apex.c:4476-4517"]}
{"id": "C285", "title": "Captions are not made in fenced code", "statement": "All lines between two fences of code come out of the pass for table captions unchanged, whatever they look like.", "quantifier": "for all fenced blocks in all texts", "why_tests_cant": "Tests show a handful of documents; the statement is about every text, every number of lines and every combination of the pass's flags.", "anchors": ["src/apex.c:1230-1630", "src/apex.c:4476-4517"]}
{"id": "C286", "title": "The pass for table captions yields newlines only", "statement": "Whatever mixture of line ends a text has, the result has no carriage return and, unless empty, ends with a newline.", "quantifier": "for all texts", "why_tests_cant": "Tests show a handful of documents; the statement is about every text, every number of lines and every combination of the pass's flags.", "anchors": ["src/apex.c:1230-1630", "src/apex.c:4476-4517"]}
{"id": "C287", "title": "A paragraph behind a table stays in one piece", "statement": "A paragraph behind a table and a blank line is not cut in two by the pass for table captions.", "quantifier": "for all rows and paragraphs", "why_tests_cant": "Tests show a handful of documents; the statement is about every text, every number of lines and every combination of the pass's flags.", "anchors": ["src/apex.c:1230-1630", "src/apex.c:4476-4517"]}
{"id": "C288", "title": "A definition is not a caption", "statement": "A definition (a line with a term, then a line ': text') is not turned into a caption.", "quantifier": "for all terms and texts", "why_tests_cant": "Tests show a handful of documents; the statement is about every text, every number of lines and every combination of the pass's flags.", "anchors": ["src/apex.c:1230-1630", "src/apex.c:4476-4517"]}
{"id": "C289", "title": "A line : caption behind a table becomes its caption", "statement": "A line ': caption' behind a table, with any number of blank lines between, becomes a paragraph '[caption]' with its attributes behind it, and the text before and behind is unchanged.", "quantifier": "for all texts before and behind, rows, captions and attributes", "why_tests_cant": "Tests show a handful of documents; the statement is about every text, every number of lines and every combination of the pass's flags.", "anchors": ["src/apex.c:1230-1630", "src/apex.c:4476-4517"]}
{"id": "C290", "title": "Liquid tags: memory", "statement": "Neither putting Liquid tags aside nor putting them back writes behind its buffer.", "quantifier": "for all texts, pages and lists of tags", "why_tests_cant": "Tests use a few documents with a few tags; the statement is about every text, every page the parser may make of it and every number of tags.", "anchors": ["src/apex.c:1022-1207", "src/apex.c:1634-1765", "src/apex.c:4932-4938", "src/apex.c:5193-5200"]}
{"id": "C291", "title": "Liquid tags: the parser never sees one", "statement": "Every tag is kept exactly as written, the parser is given a name for each, everything else is unchanged, and no complete tag is left in what the parser is given.", "quantifier": "for all texts", "why_tests_cant": "Tests use a few documents with a few tags; the statement is about every text, every page the parser may make of it and every number of tags.", "anchors": ["src/apex.c:1022-1207", "src/apex.c:1634-1765", "src/apex.c:4932-4938", "src/apex.c:5193-5200"]}
{"id": "C292", "title": "Liquid tags: round trip", "statement": "Putting tags aside and putting them back gives the text as it was.", "quantifier": "for all texts", "why_tests_cant": "Tests use a few documents with a few tags; the statement is about every text, every page the parser may make of it and every number of tags.", "anchors": ["src/apex.c:1022-1207", "src/apex.c:1634-1765", "src/apex.c:4932-4938", "src/apex.c:5193-5200"]}
{"id": "C293", "title": "Liquid tags: any page", "statement": "Wherever the parser puts the names of tags, in any order and any number of times, each is replaced by its tag and nothing else on the page changes.", "quantifier": "for all pages and lists of tags", "why_tests_cant": "Tests use a few documents with a few tags; the statement is about every text, every page the parser may make of it and every number of tags.", "anchors": ["src/apex.c:1022-1207", "src/apex.c:1634-1765", "src/apex.c:4932-4938", "src/apex.c:5193-5200"]}
{"id": "C294", "title": "Liquid tags: look-alikes", "statement": "Text on the page that looks like the name of a tag but has a number that no tag has stays as it is.", "quantifier": "for all pages and numbers", "why_tests_cant": "Tests use a few documents with a few tags; the statement is about every text, every page the parser may make of it and every number of tags.", "anchors": ["src/apex.c:1022-1207", "src/apex.c:1634-1765", "src/apex.c:4932-4938", "src/apex.c:5193-5200"]}
{"id": "C295", "title": "Addresses become links: memory", "statement": "The pass that turns addresses into links never writes behind its buffer.", "quantifier": "for all texts", "why_tests_cant": "Tests use a few addresses in a few sentences; the statement is about every address in every surrounding text.", "anchors": ["src/apex.c:494-1013", "src/apex.c:4198-4211"]}
{"id": "C296", "title": "Addresses become links: nothing else changes", "statement": "The result differs from the text only in that some addresses (words with http://, https:// or mailto in front, <...> with a scheme, words with an @ behind a letter or digit) are replaced by links to themselves.", "quantifier": "for all texts", "why_tests_cant": "Tests use a few addresses in a few sentences; the statement is about every address in every surrounding text.", "anchors": ["src/apex.c:494-1013", "src/apex.c:4198-4211"]}
{"id": "C297", "title": "URLs in the text", "statement": "Every http://, https:// or mailto: URL that white space sets off becomes a link with the URL as text and target.", "quantifier": "for all texts and URLs", "why_tests_cant": "Tests use a few addresses in a few sentences; the statement is about every address in every surrounding text.", "anchors": ["src/apex.c:494-1013", "src/apex.c:4198-4211"]}
{"id": "C298", "title": "URLs at the end of a sentence", "statement": "Punctuation behind a URL does not belong to the link.", "quantifier": "for all texts, URLs and marks of punctuation", "why_tests_cant": "Tests use a few addresses in a few sentences; the statement is about every address in every surrounding text.", "anchors": ["src/apex.c:494-1013", "src/apex.c:4198-4211"]}
{"id": "C299", "title": "URLs in code", "statement": "Code, whether inline or fenced, is not changed, and behind inline code URLs become links again.", "quantifier": "for all code and texts around it", "why_tests_cant": "Tests use a few addresses in a few sentences; the statement is about every address in every surrounding text.", "anchors": ["src/apex.c:494-1013", "src/apex.c:4198-4211"]}
{"id": "C300", "title": "Links the user wrote", "statement": "A link [words](target) in the text stays as it is.", "quantifier": "for all words and targets", "why_tests_cant": "Tests use a few addresses in a few sentences; the statement is about every address in every surrounding text.", "anchors": ["src/apex.c:494-1013", "src/apex.c:4198-4211"]}
{"id": "C301", "title": "E-mail addresses in the text", "statement": "An e-mail address that white space sets off becomes a mailto: link, and full stops, commas, semicolons and colons behind it stay outside.", "quantifier": "for all texts without markup in front and all addresses", "why_tests_cant": "Tests use a few addresses in a few sentences; the statement is about every address in every surrounding text.", "anchors": ["src/apex.c:494-1013", "src/apex.c:4198-4211"]}
{"id": "C302", "title": "HTML tags", "statement": "An HTML tag with an attribute in quotes stays as it is.", "quantifier": "for all names, attributes and values", "why_tests_cant": "Tests use a few addresses in a few sentences; the statement is about every address in every surrounding text.", "anchors": ["src/apex.c:494-1013", "src/apex.c:4198-4211"]}
{"id": "C303", "title": "Definitions and indented lines", "statement": "A definition of a link and an indented line are copied as they are.", "quantifier": "for all such lines behind texts without markup", "why_tests_cant": "Tests use a few addresses in a few sentences; the statement is about every address in every surrounding text.", "anchors": ["src/apex.c:494-1013", "src/apex.c:4198-4211"]}
{"id": "C304", "title": "Embedding images stays inside its buffer", "statement": "Turning the images of a page into data URLs never writes behind the output buffer.", "quantifier": "every page, base directory and file system", "why_tests_cant": "The buffer is enlarged only for tags, and the byte behind the text is written unchecked; only pages whose embedded image leaves less room than the text behind it needs go wrong, and that depends on the size of a file.", "anchors": ["src/apex.c:214-480", "src/apex.c:5448-5457"]}
{"id": "C305", "title": "Without readable files the page is unchanged", "statement": "When no file can be read, embedding images returns exactly the page it was given.", "quantifier": "every page and base directory, tags complete or not", "why_tests_cant": "Unfinished tags, nested tags and any mix of quotes would have to be enumerated.", "anchors": ["src/apex.c:214-480", "src/apex.c:5448-5457"]}
{"id": "C306", "title": "Embedding changes nothing but image sources", "statement": "The result of embedding is the page with some image sources replaced by data URLs of the named files; no text is lost.", "quantifier": "every page, base directory and file system", "why_tests_cant": "Text is dropped silently when the buffer is full and the next tag enlarges it again; that needs a file of just the right size.", "anchors": ["src/apex.c:214-480", "src/apex.c:5448-5457"]}
{"id": "C307", "title": "Every local image is embedded", "statement": "An image whose source names a readable file of at most 10 MB is replaced by a data URL with the bytes of that file.", "quantifier": "every page with one image, every text around it, every attribute before and behind the source", "why_tests_cant": "Attributes before the source may contain any text, such as a > sign.", "anchors": ["src/apex.c:214-480", "src/apex.c:5448-5457"]}
{"id": "C308", "title": "Remote images are left alone", "statement": "A source beginning with data:, http://, https:// or // is never changed, whatever files exist.", "quantifier": "every file system, base directory and page with one such image", "why_tests_cant": "That no file is used cannot be shown by trying some files.", "anchors": ["src/apex.c:214-480", "src/apex.c:5448-5457"]}
{"id": "C309", "title": "The media type follows the extension", "statement": "The data URL names the media type that belongs to the extension of the file, in any case of letters.", "quantifier": "every path, extension and file", "why_tests_cant": "All spellings of all extensions, and all extensions not listed, would have to be tried.", "anchors": ["src/apex.c:214-480", "src/apex.c:5448-5457"]}
{"id": "C310", "title": "Only the src attribute is replaced", "statement": "Embedding replaces the value of src and no other attribute.", "quantifier": "every tag, file system and base directory", "why_tests_cant": "Attribute names that merely end with src= are found only by someone who thinks of them.", "anchors": ["src/apex.c:214-480", "src/apex.c:5448-5457"]}
{"id": "C311", "title": "Merging lists loses nothing", "statement": "With mixed list markers allowed, every paragraph, item and other node of the document is still there afterwards, once.", "quantifier": "every document tree of any depth", "why_tests_cant": "Nodes are unlinked, appended and freed while the tree is walked; trees have no bound.", "anchors": ["src/apex.c:2403-2470", "src/apex.c:5115-5118"]}
{"id": "C312", "title": "Merging lists keeps the order", "statement": "The text of the document keeps its order when lists with different markers are merged.", "quantifier": "every document tree", "why_tests_cant": "The order of three neighbouring lists of two types is easily not tried.", "anchors": ["src/apex.c:2403-2470", "src/apex.c:5115-5118"]}
{"id": "C313", "title": "After merging, neighbouring lists have one type", "statement": "After the merge, no two adjacent lists at any depth differ in type.", "quantifier": "every document tree", "why_tests_cant": "Nesting is unbounded, and items that were moved are not visited.", "anchors": ["src/apex.c:2403-2470", "src/apex.c:5115-5118"]}
{"id": "C314", "title": "Documents without mixed lists are unchanged, and only those", "statement": "The merge returns the tree it was given exactly when no two adjacent lists differ in type.", "quantifier": "every document tree, in both directions", "why_tests_cant": "An equivalence over all trees.", "anchors": ["src/apex.c:2403-2470", "src/apex.c:5115-5118"]}
{"id": "C315", "title": "The first list of a run wins", "statement": "In a run of lists the first keeps its type and gets the items of all lists of other types in order; the others stay as they are.", "quantifier": "every run of lists of any length and types", "why_tests_cant": "Runs of any length and any mix of types.", "anchors": ["src/apex.c:2403-2470", "src/apex.c:5115-5118"]}
{"id": "C316", "title": "Lists with something between them are not merged", "statement": "A node that is no list separates: the parts before and behind it are treated on their own.", "quantifier": "every document and every such node", "why_tests_cant": "Any two documents may be joined.", "anchors": ["src/apex.c:2403-2470", "src/apex.c:5115-5118"]}
{"id": "C317", "title": "Encoding an image address keeps its meaning", "statement": "The encoded address of an image consists of address bytes only, denotes what the address denoted, and fits into its buffer.", "quantifier": "every address, with any bytes and any stray percent signs", "why_tests_cant": "Percent signs without digits, followed by bytes that are themselves encoded, have no end of combinations.", "anchors": ["src/extensions/ial.c:1709-1749"]}
{"id": "C318", "title": "Encoding leaves finished addresses alone", "statement": "An address is unchanged exactly when it consists of address bytes; encoding twice is encoding once.", "quantifier": "every address", "why_tests_cant": "An equivalence over all addresses.", "anchors": ["src/extensions/ial.c:1709-1749"]}
{"id": "C319", "title": "The @2x suffix never changes the host", "statement": "The host of an absolute address is never modified when the address of the @2x or @3x variant is formed.", "quantifier": "every scheme, host and rest", "why_tests_cant": "Hosts with nothing behind them are not images in tests.", "anchors": ["src/extensions/ial.c:1898-1961", "src/extensions/ial.c:2064-2119"]}
{"id": "C320", "title": "The suffix goes before the extension of the file", "statement": "For a relative address with an extension the suffix or the new extension goes to the extension of the file name.", "quantifier": "every directory, name, extension, query and fragment", "why_tests_cant": "Queries and fragments can hold any text, slashes included.", "anchors": ["src/extensions/ial.c:1898-2002", "src/extensions/ial.c:2064-2119"]}
{"id": "C321", "title": "A variant differs from the address in one place", "statement": "A suffixed address is the address with the suffix before a dot of the path and nothing else changed; the new extension replaces what follows that dot up to the query.", "quantifier": "every address, suffix and extension", "why_tests_cant": "All addresses.", "anchors": ["src/extensions/ial.c:1898-2002", "src/extensions/ial.c:2064-2119"]}
{"id": "C322", "title": "The srcset names matching variants", "statement": "The srcset of a format lists the address with the new extension and, when asked for, its @2x and @3x variants, complete.", "quantifier": "every address, format and choice of variants", "why_tests_cant": "The variant is formed in two steps that search the address anew; that both find the same place is a fact about all addresses.", "anchors": ["src/extensions/ial.c:2121-2171"]}
{"id": "C323", "title": "The renderer finds the variants of every image with an extension", "statement": "An address with an extension in its path gets the address with the new extension, whatever its query.", "quantifier": "every address, query and fragment", "why_tests_cant": "Versions such as ?v=1.2 occur in practice, not in tests.", "anchors": ["src/html_renderer.c:193-216"]}
{"id": "C324", "title": "Videos are recognised by their extension", "statement": "An address is that of a video exactly when its path ends with one of the six extensions, in any case.", "quantifier": "every address", "why_tests_cant": "All addresses and fragments.", "anchors": ["src/extensions/ial.c:2008-2032", "src/html_renderer.c:3553-3575"]}
{"id": "C325", "title": "Replacing marked images stays within its buffers", "statement": "apex_expand_auto_media never writes behind the page buffer, the replacement buffer or the srcset buffers and never cuts a replacement short.", "quantifier": "all pages, base directories and file systems", "why_tests_cant": "The overflow needs an existing video file and a description longer than 512 bytes plus six times the address; it depends on three attribute lengths and on which of up to nine files exist.", "anchors": ["src/html_renderer.c:3577-3951 apex_expand_auto_media", "src/html_renderer.c:159-258 extract_attr_from_tag, find_tag_end", "src/apex.c:5382-5395"]}
{"id": "C326", "title": "Only marked images are replaced", "statement": "An image tag without data-apex-replace-auto=1 is left byte for byte as it was, whatever variants of it exist on disk and whatever follows in the page.", "quantifier": "all pages and file systems", "why_tests_cant": "Tests use one image per page; the defect needs an unmarked image in front of a marked one.", "anchors": ["src/html_renderer.c:3577-3951 apex_expand_auto_media", "src/html_renderer.c:159-258 extract_attr_from_tag, find_tag_end", "src/apex.c:5382-5395"]}
{"id": "C327", "title": "Without files the page is unchanged", "statement": "If no file with a relative address exists below the base directory, the page is returned byte for byte, whatever absolute or remote names exist.", "quantifier": "all pages (malformed tags included), base directories and file systems", "why_tests_cant": "A claim about every page and every address; tests name a few.", "anchors": ["src/html_renderer.c:3577-3951 apex_expand_auto_media", "src/html_renderer.c:159-258 extract_attr_from_tag, find_tag_end", "src/apex.c:5382-5395"]}
{"id": "C328", "title": "Only files below the base directory matter", "statement": "The result depends only on which relative addresses name files below the base directory: absolute and remote addresses are never looked up.", "quantifier": "all pages and all pairs of file systems", "why_tests_cant": "A non-interference statement relates two runs over all file systems.", "anchors": ["src/html_renderer.c:3577-3951 apex_expand_auto_media", "src/html_renderer.c:159-258 extract_attr_from_tag, find_tag_end", "src/apex.c:5382-5395"]}
{"id": "C329", "title": "A marked image lists just the variants that exist", "statement": "A marked image that exists becomes a picture whose sources list, per format (AVIF, then WebP) and density (1x, 2x, 3x), exactly the variants that exist below the base directory, with the image and its own denser variants last; without variants the tag is unchanged, and the text around it is kept.", "quantifier": "all file systems, names, extensions, descriptions and surrounding text without other images", "why_tests_cant": "Eight files may or may not exist and names vary; the defect (a missing plain variant is listed) needs one particular combination.", "anchors": ["src/html_renderer.c:3577-3951 apex_expand_auto_media"]}
{"id": "C330", "title": "A theme style sends the terminal nothing but renditions", "statement": "Whatever a theme's style string contains, what apply_style_string writes is a sequence of ESC [ digits and semicolons m.", "quantifier": "all style strings, with and without 256 colours", "why_tests_cant": "Themes are files of the user; only particular words let other bytes, such as control sequences, reach the terminal.", "anchors": ["src/ast_terminal.c:278-383 apply_style_token, apply_style_string"]}
{"id": "C331", "title": "A background colour in hexadecimal colours the background", "statement": "bgRRGGBB and on_RRGGBB (with or without #) set a background colour, #RRGGBB a text colour.", "quantifier": "all six-digit colours, with and without 256 colours", "why_tests_cant": "There are 22^6 spellings and the answer depends on the terminal's depth.", "anchors": ["src/ast_terminal.c:278-362 apply_style_token"]}
{"id": "C332", "title": "The palette colour is the nearest one", "statement": "rgb_to_256 gives the number of the colour of the xterm palette that is nearest to the colour asked for.", "quantifier": "all 2^24 colours", "why_tests_cant": "The defect shows only for colours between the uneven steps of the palette.", "anchors": ["src/ast_terminal.c:258-275 rgb_to_256"]}
{"id": "C333", "title": "A style is its words one after the other", "statement": "The sequences of two style strings joined by white space are those of the first followed by those of the second; a string of white space gives nothing.", "quantifier": "all style strings and white space", "why_tests_cant": "Strings of any length and any mixture of words.", "anchors": ["src/ast_terminal.c:365-383 apply_style_string"]}
{"id": "C334", "title": "A three-digit colour is the six-digit one with each digit twice", "statement": "#RGB, bgRGB and on_RGB give the same non-empty sequence as #RRGGBB, bgRRGGBB and on_RRGGBB.", "quantifier": "all hexadecimal digits in both cases, all prefixes, with and without 256 colours", "why_tests_cant": "Every digit in either case, in every position and after every prefix.", "anchors": ["src/ast_terminal.c:217-255 hex_nibble, parse_hex_rgb"]}
{"id": "C335", "title": "Names and flags of a theme mean what they say and nothing else does", "statement": "Each of the eight colour names, alone or behind on_, intense_, bright_, on_intense_ or on_bright_, gives its SGR code (30, 40, 90 or 100 plus its place), each flag word its own; a word that is neither of these, nor a hexadecimal colour, nor raw, gives nothing.", "quantifier": "all words up to 63 bytes, with and without 256 colours", "why_tests_cant": "That no other word gives anything is a statement about every word there is.", "anchors": ["src/ast_terminal.c:174-214 ansi_color_code_from_name", "src/ast_terminal.c:278-362 apply_style_token"]}
{"id": "C336", "title": "A colour name behind bg colours the background", "statement": "bgNAME sets the background as on_NAME does, as announced in the code (on_foo or bgFOO).", "quantifier": "all words behind bg up to 61 bytes", "why_tests_cant": "The branch exists but no word at all can pass both of its conditions; a test shows single words only.", "anchors": ["src/ast_terminal.c:174-214 ansi_color_code_from_name"]}
{"id": "C337", "title": "The first styled class decides", "statement": "theme_style_for_span_classes gives the style of the first class of the list that has an entry in the theme (the first entry if there are several), and NULL if none has.", "quantifier": "all themes and class lists", "why_tests_cant": "Lists and themes of any length with any white space.", "anchors": ["src/ast_terminal.c:1092-1125 theme_style_for_span_classes"]}
{"id": "C338", "title": "An element is styled by its class attribute", "statement": "theme_style_for_node_attrs gives the style of the classes of the class attribute and NULL without one.", "quantifier": "all themes and attribute strings", "why_tests_cant": "Other attributes may contain class= anywhere, and the list may be of any length.", "anchors": ["src/ast_terminal.c:1131-1176 theme_style_for_node_attrs"]}
{"id": "C339", "title": "bold: true adds bold and keeps the style", "statement": "A style made bold by the theme gives the sequence for bold followed by just the sequences it gave before; without a style it gives bold alone.", "quantifier": "all styles, present or not, with and without 256 colours", "why_tests_cant": "Styles of any length and content.", "anchors": ["src/ast_terminal.c:479-494 ensure_bold_prefix"]}
{"id": "C340", "title": "The terminal's buffer never overflows and keeps pieces whole", "statement": "Whatever is appended and whichever allocations fail, buffer_append writes only within what was allocated, terminator included, and the text is made of whole pieces in order: all of them if no allocation fails.", "quantifier": "all sequences of appended strings and of failing allocations", "why_tests_cant": "Sequences of any length, every size against every capacity, and failing allocations.", "anchors": ["src/ast_terminal.c:74-97 buffer_init, buffer_append"]}
{"id": "C341", "title": "The terminal's buffer is at most twice as large as needed", "statement": "The capacity is at most 256 bytes or twice the length of the text with its terminator.", "quantifier": "all sequences of appended strings and of failing allocations", "why_tests_cant": "An invariant of every sequence of appends.", "anchors": ["src/ast_terminal.c:74-97 buffer_append"]}
