# Formal model of apex (Markdown processor) in Rocq

The model covers the pure text-processing code of apex function by function.
cmark-gfm, libyaml, the operating system and `malloc` are outside the model.

## Trusted base

* Coq 8.16.1's kernel (`coqc`; `coqchk` re-checks the compiled files).
* What `Print Assumptions` reports for each theorem (every property file prints
  it below each theorem).  No axioms are added; see section "Assumptions" below.
* The correspondence between the C text and the Gallina definitions.  Each
  definition cites the lines it models.  Nothing was extracted or executed.

## Memory model

* A byte is a Coq `ascii`.  A C string is the `list ascii` of the bytes before
  its NUL.  Lists are arbitrary; "NUL-free" is a hypothesis only where a
  theorem needs it.
* The read pointer is the suffix of the text that it points at.  `*p` at the
  empty suffix is NUL.  Reads further than the terminator are *not* assumed
  away: functions that can perform them take the memory behind the terminator
  (`beyond`) as an extra argument, return what they would compute from it and
  raise a sticky `oob_read` flag.
* The write side is a buffer with its capacity, the bytes written and the
  function's own `remaining` counter.  A store at an index `>= capacity` raises
  a sticky `oob_write` flag.
* `malloc`/`realloc` are assumed to succeed unless a function's comment says
  otherwise.  `size_t` arithmetic is modelled without wrap-around (unbounded
  `nat`/`Z`) except where noted; a subtraction that would wrap is a distinct
  outcome.
* Loops that jump ahead are run with fuel; running out of fuel is the distinct
  outcome `None` and every property excludes it by proof.

## Layout

* `M_*.v` model, no proofs.  `S_*.v` independent specification.
* `L_*.v` lemmas.  `P_*.v` property theorems, each closed by `exact`, with
  `Print Assumptions` beneath and a concrete `Example` beside it.

## Properties

(see MANIFEST.json for the status and theorem names)

| id | modelled | proof |
|---|---|---|
| C01 | base64 encoder with its literal padding tests; independent decoder | round trip by induction on blocks of three; `_refuted` for the lengths where the padding test is wrong |
| C02 | same | length, alphabet, decoder prefix by block induction |
| C03 | hex entity encoder; independent entity decoder | round trip by list induction |
| C04-C07 | scanner, per-kind replacement and the bounded copy loop | loop invariant (`written <= 2*consumed`), refinement to an unbounded specification; markup mode refuted |
| C08,C09 | highlight loop with code tracking and `remaining` counter | refutation by computation; positive theorem under the exact space guard |
| C10,C11 | both JSON escapers, the JSON string reader | round trip by induction |
| C12,C13,C32 | metadata list functions | list induction |
| C14 | sorted insertion | insertion sort correctness (sorted + permutation) |
| C15 | in-place rewriting of the shared buffer | refinement for k = 1, exact failure theorem for k >= 2 |
| C16-C19 | HTML post-processors | structural induction; refutation for C17 at a final `>` |
| C20 | special markers | loop invariants; refutation for `{index}` at the end of text |
| C21 | id generation (three formats) | invariants over the write loop |
| C22-C24 | buffer, utf8, escape_html | refinement, induction |
| C25 | option records per mode | case analysis over all modes |
| C26,C27 | newline normalisation; buffer life-cycle automaton of the pipeline | case analysis, refutation of C27 with witness paths |
| C28 | proofreader loop | arithmetic invariant |
| C29 | pretty printer | refinement on non-white-space bytes, refutation when tags do not fit |
| C30 | TOC writer | stack invariant / refutation on level jumps |
| C31 | inline footnotes | invariant on counter |
| C33-C35 | obfuscation of mail links | list induction |
| C36 | highlight loop inside code spans and fenced code | invariant of the code tracker |
| C37 | plugin request builder | RFC 8259 grammar; refuted for ids with a quote |
| C38 | AST writer (all node kinds) | structural induction on trees; refuted by bracket counting |
| C39 | AST writer and reader | exact characterisation of what comes back; refuted by computation |
| C40 | JSON reader with fuel | length measure: the fuel always suffices |
| C41 | json_skip_value | mutual induction on the grammar |
| C42,C43 | parent, child and two pipes as a transition system; arbitrary child | invariants over all executions, well-foundedness of the step relation; explicit deadlock for every capacity |
| C44 | filter chain | list induction |

| C45,C46 | transform chain parser, truth words | read back of printed chains by induction; case analysis |
| C47-C57 | every transform of apply_transform as a function on byte strings with an undefined-behaviour outcome | induction per transform; refutations for the transforms whose documented behaviour fails |
| C58,C59 | regex replacement loop and plugin phases; regexec and commands abstract | fold lemmas; refuted for patterns that match the empty string |
| C60-C62 | merge index, standard input reader, combined files | list induction, invariant of the growing buffer |
| C63,C64 | separator rows of tables, quote language | exact scanner lemmas |
| C65,C66 | renderer.c and parser.c | structural induction on the tree |
| C67-C69 | metadata keys, command line flags, their merge as functions on the option record | case analysis over keys and flags |
| C70-C72 | abbreviations: extraction and mark-up with the write buffer | loop invariants; refutations |
| C73-C77 | apex_markdown_to_html as a straight-line program over abstract steps with an allocation table | composition lemmas, life-cycle automaton |
| C78,C79 | proofreader loop over segments | invariant of the code tracker |
| C80,C81 | pretty printer with its buffer | buffer invariant; refutations |
| C82-C86 | toc.c: headings, marker, writer | tokenised HTML; list induction |
| C87-C91 | heading text, manual ids, id injection | writer invariants; id function abstract |
| C92,C93 | inline footnotes | invariant on counter and code tracker |
| C94-C96 | sup_sub.c whole scanner | lock-step relation between input and output |
| C97,C98 | insert.c with its buffer, attribute parser abstract | writer invariant, exact space guard |
| C99-C106 | ial.c 85-788: parser, definitions, references, merge, tag text with buffers | printer/parser round trip; exactness of the buffer sizes |
| C107-C114 | ast_markdown.c whole file over cmark trees | structural induction; independent readers of escapes, code, quotes, lists, links, headings |
| C115-C120 | ast_man.c roff part | a reader of roff as a state machine; simulation along the writer; exact domain of termination |
| C121-C125 | ast_man.c HTML part | a reader of HTML as a state machine; neutral tag sequences; words and sections by list induction |
| C126-C127 | math.c 29-193 | scanner against a declarative definition of formulas, induction on the text with the passed prefix generalised; the HTML reader of C121 |
| C128-C131 | callouts.c, all | trees; marker relation proved equivalent to the scanner; tree induction; the HTML reader of C121 |
| C132-C137 | wiki_links.c 53-314, 404-617 | declarative leftmost reading, proved unique; cleaned names by induction on length with an automaton of well-formed names; tree induction |
| C138-C147 | includes.c 182-449 (apex_csv_to_table), inline_tables.c, all | records and documents as declarative relations, proved total and unique; a separate reader of pipe tables; sizes of buffers as outcomes (`Overrun`, `Bad`); induction on records, fuel and relations |
| C148-C154 | includes.c 472-838 (parse_address_spec, extract_lines); regcomp and regexec are a parameter | addresses written by a separate printer and read back; lines as a decomposition of the file; first matches as a relation; the buffer as a writer with its room; recursion without end as an outcome (`Loops`) |
| C155-C166 | includes.c 51-168, 844-1536 (apex_process_includes, fences, wildcards, transclude base); files, stat, glob, the value of "transclude base" and regcomp are parameters (a record) | documents as lists of segments with a separate relation of expansion by level; a reader of fenced blocks; the output buffer as a writer; faults, endless recursion and fuel as distinct outcomes; induction on levels and on fuel |
| C167-C178 | emoji.c (all of it), emoji_data.h (all 861 entries as data); the table is a parameter of the theorems, results about the table of the program are computed | texts as tokens, read by a separate relation; edit sequences as an inductive relation and their minimum; nearest and longest names by position in the table; writer with capacity; over-reads as an outcome |
| C179-C187 | fenced_divs.c (all of it); snprintf into the rest of the buffer, which moves the pointer by the full length; malloc(0) gives no byte | fences, attribute lists and documents as separate relations on lines; balanced divs as an inductive relation; buffers by capacity |
| C188-C194 | special_markers.c (all of it); the number of a pause is printed from its digits without zeros in front (equal to %d of atoi in the range of int; outside of it undefined) | markers and shown text as inductive relations; buffer by capacity; exact result for one page break |
| C195-C202 | html_markdown.c (all of it); parsing and rendering of the content is an arbitrary function; malloc(0) gives a buffer without a byte; allocation never fails | start tags as lists of words, nesting as an inductive relation, documents as an inductive relation; by induction on it; buffers by capacity |
| C203-C209 | apex.c 2342-2405, 2969-3198, 3423-3531, 5271-5300 (rules, poetry, empty paragraphs, title, footnote break); allocation never fails | each pass as an inductive relation between texts, by induction on it; buffers by capacity |
| C210-C213 | apex.c 3204-3415 (hash, prefix, ids); unsigned long has 64 bits; allocation never fails | prefix as digits of the hash, insertion as an inductive relation; buffer by capacity |
| C214-C218 | apex.c 4554-4726 (hashtags); fewer than 2^31 spaces in a row; allocation never fails | lines and tags as inductive relations, by induction on them; the state of the loop by its value at the start of a line; buffer by capacity |
| C219-C222 | apex.c 3538-3956 (widont); allocation never fails | last words by positions in the text, documents and tags as inductive relations; the backward loop by an invariant; buffer by capacity |
| C223-C230 | apex.c 5710-5935 (scripts, footer, style sheets, embedding) and 5998-6465 (apex_wrap_html_document), with all style texts; reading a file is a function of the path; allocation never fails, lengths below INT_MAX | the document as one concatenation, style elements by shape; the buffer by what is still to be written; links found by the bytes before them; freed memory as the outcome Bad |
| C231-C239 | metadata.c 251-736 (the three parsers of the document head and apex_extract_metadata) and cli/main.c 3128-3215 (front matter written from merged metadata); libyaml is any function from the text it is given to items or failure | lines as lists with the bytes of 1023; each parser by induction over the lines; what is left by the lines before it; the writer by an invariant between its size and what it has written |
| C240-C245 | syntax_highlight.c 51-481; the shell is any function from command and input to output, the highlighters are programs of two kinds (all input first, or byte by byte), pipes hold K bytes; the test for the program with `which` is left out | documents as a relation between HTML and output; one step per block; command lines by a small grammar of words; reading by an invariant on the capacity; pipes as a transition system with conserved bytes |
| C246-C257 | index.c 29-967: the three parsers, the pass with its growing buffer (every write checked), the marks and their anchors, the comparison, the flat and the grouped index, its insertion. qsort is any function whose result is a sorted permutation; the reading from a file of terms is not there in the code; lengths are unbounded numbers | marked and anchored texts and the documented forms as relations; order and page as separate functions | C246, C247, C253, C254, C257 by induction on the text or the relation; C248-C252, C255, C256 are false: refuted (C248, C250, C252 universally), with the exact or a large part that holds |
| C258-C266 | relaxed_tables.c 1-1230 and its two calls in apex.c 4357-4435: kinds of lines, counting of columns, the separator and the empty header, the collecting pass with its buffer (every write checked), the pass for headers. Lengths are unbounded numbers, allocation succeeds | kinds of lines, filled-in and headed lists of lines as relations; cells of a row as tables are read | C258, C264 by an invariant on the buffer; C259-C263, C265, C266 are false: refuted (C259-C262 universally), with the exact guard or result proved |
| C267-C274 | apex.c 2001-2340: the pass that numbers items with letters (buffer of three times the text, prints that do not fit are left out, copies are cut, the last NUL needs a byte, atoi beyond int is `Bad`), the pass over the page that takes the signs out and styles the lists. Lengths are unbounded numbers, allocation succeeds | items, runs of items and lettered lists of lines, signed pages as relations | C268 proved; the others are false: refuted (C269-C273 universally), with the exact result (C269, C273) or guard proved. Proofs by induction on the lines and the page with an invariant on the buffer |
| C275-C280 | apex.c 1778-1998 and its call 4438-4475: lines with LF, CR and CRLF, fences, the loop over the bytes of a row with every growth of the buffer, the NUL at the end. Lengths are unbounded numbers, allocation succeeds | lines with their ends, spreading of bars (by recursion on the line), fences, parts of a row | C275, C276, C280 by an invariant on the buffer and induction on lines and rows; C277-C279 are false: refuted universally, with the exact guard proved |
| C281-C289 | apex.c 1230-1630 and its call 4476-4517: lines with LF, CR and CRLF, fences, rows, blank lines held back, the three kinds of captions, attributes; writing more than the 2*len bytes of the unchecked buffer is a distinct outcome. Allocation succeeds | calm lines, rows, captions with attributes, texts with blank lines left out (a relation) | C281, C286, C289 by an invariant on the flags and the buffer and induction on the lines; C282-C285, C287, C288 are false: refuted, mostly universally, with the exact guard proved |
| C290-C294 | apex.c 1022-1207, 1634-1765 and their calls: both loops with every growth of the buffers, numbers read modulo 2^64. What happens between the two passes is not modelled: the theorems about pages hold for every page. Allocation succeeds | tags and the texts between them, names, pages with names (a relation read byte by byte) | C290, C291 by induction on tags and pages; C292-C294 are false: refuted universally, with the guard proved |
| C295-C303 | apex.c 494-1013 (call 4198-4211): the loop with its state, the line checks, attributes, <...>, comments, addresses and the growth of the buffer. A turn is given the text already read, backwards. Allocation succeeds | links, addresses and the relation between text and result (S_Autolink) | C295, C296 by induction over the turns; C297-C300, C302 are false: refuted universally, with the guard proved by runs over text of known shape; C301, C303 proved |
| C304-C310 | apex.c 214-480 (call 5448-5457): the media type, the path, reading and encoding (with M_Encode), the loop over the page and the growth of the buffer. The file system is a function from paths to contents; reading a file is one step; allocation succeeds | tags with a source, remote addresses, places of files, data URLs (a decoder, S_Encode) and the relation between page and result (S_Embed) | a loop without buffer stands for the loop while the buffer suffices; for pages with one image the loop is computed in closed form, buffer included; the counterexamples choose the size of the file from the page |
| C311-C316 | apex.c 2403-2470 (call 5115-5118): the walk over the tree and the inner loop over the siblings. Trees are values: unlinking, appending and freeing give new lists of siblings, so pointers to freed nodes are outside the model; appending an item to a list succeeds; recursion depth is not bounded | the tree, its levels, runs of lists, what a tree says (S_Merge) | the fuel is shown to suffice (weight of the tree), then the loop is a relation and each property an induction over it |
| C317-C324 | ial.c 1709-1749 (percent encoding, with its buffer), 1898-2032, 2064-2171 (suffixes, extensions, srcset); html_renderer.c 193-216, 3484-3529, 3553-3575 (the same for the renderer). Arguments are not NULL; allocation succeeds | a decoder, address bytes, parts of an address (S_ImgUrl) | decoding by induction over the address with two bytes of look-ahead; the place of the dot is computed from the parts of the address, and inserting a suffix is shown not to move it |
| C325-C329 | M_Media: apex_expand_auto_media with find_tag_end, extract_attr_from_tag, the look-up of files (a predicate on paths), the video and picture replacements with the capacities of their buffers, and the page buffer with its three growth rules. The snprintf chain is one test of the total length. Allocation succeeds; sizes do not overflow | tags, addresses below the base, the marker (S_Media) | loop invariants over all suffixes of the page; length bounds of each piece; congruence in the file predicate; C325, C326 and C329 refuted (C325 for all long descriptions); C329 compares one marked image in a page without other images with a short description of the wanted picture |
| C330-C336 | M_Style: append_ansi_seq, ansi_color_code_from_name, hex_nibble, parse_hex_rgb, rgb_to_256 (doubles as exact quotients), apply_style_token, apply_style_string (ast_terminal.c 167-383) | S_Style: Sgr (sequences of renditions), hexa (digits and values), palette (the xterm colours), near, distance, outset | words of a text split by induction; colours below 256 by a complete check of each component, put together by algebra; the words that give anything by inverting the branches (P2_Style); C330, C331, C332 and C336 refuted, with the part that holds |
| C337-C339 | M_Theme: ensure_bold_prefix, theme_style_for_span_classes, theme_style_for_node_attrs (ast_terminal.c 479-494, 1092-1176; entries without name or style left out) | S_Theme: Words (the words of a text, inductively), entry, first_of | words by induction on Words, entries by induction on the theme; C338 refuted, with the part that holds |
| C340-C341 | M_TermBuf: buffer_init, buffer_append (ast_terminal.c 74-97) with realloc failing or not; sizes are natural numbers | some_of (pieces in order) in P_TermBuf | an invariant between length and capacity, by induction on the appends |

## Assumptions

`Print Assumptions` reports "Closed under the global context" for every property theorem: no axiom, not
even one of the standard library, is used.  (The library axioms that a listing of all loaded files shows
belong to ssreflect files which `Lia` loads; no theorem depends on them.)

What the model itself takes for granted:

* the "C" locale for `isspace`, `isalnum`, `toupper` and the like; `char` values are the bytes 0 to 255;
* `malloc`, `realloc` and `strdup` succeed; `int` counters and `size_t` do not overflow;
* cmark: a document is a finite tree of the inductive type of `M_Md` (or `M_Json`, `M_Core`); parsing and HTML
  rendering by cmark are abstract functions;
* M_Trans and M_Run: library functions and the steps of the pipeline are arbitrary functions;
* M_Plug: `regexec` and external commands are arbitrary functions; M_Ids: the emoji table is arbitrary;
* M_Opt, M_Toc: `atoi` without overflow; `dirname`, shorthands of scripts and look-up of filters are arbitrary;
* M_Toc, M_HeadIds: the id function and the text of headings are arbitrary functions; linked lists are lists;
* M_Ins: the parser of attribute lists is an arbitrary function (it is modelled in M_Attr);
* M_Man, M_ManHtml: growing buffers are lists; syntax highlighting of the finished page is off.

## Not modelled

The files with tables (advanced_tables.c, grid_tables.c, table_html_postprocess.c), citations.c,
definition_list.c, the network part of plugins_remote.c, most of ast_terminal.c (all but its buffer, its style strings and the styles of classes), the parts of apex.c,
html_renderer.c, metadata.c and ial.c that no `M_*` file cites.  Nothing is claimed about them.
