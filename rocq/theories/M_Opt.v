(** Model of the option record: src/apex.c (defaults, modes, what the parser is
    given), src/extensions/metadata.c (options set by metadata) and cli/main.c
    (options set by arguments, and the order of the two). *)
From Verif Require Import Base M_Meta.

(** ** include/apex/apex.h 58-221, apex_options *)

(** The members.  The two progress members, which only the CLI sets, are left out. *)
Inductive field :=
| Mode | EnablePlugins | EnableTables | EnableFootnotes | EnableDefinitionLists
| EnableSmartTypography | EnableMath | EnableCriticMarkup | EnableWikiLinks | EnableTaskLists
| EnableAttributes | EnableCallouts | EnableMarkedExtensions | EnableDivs | EnableSpans
| CriticMode | StripMetadata | EnableMetadataVariables | EnableMetadataTransforms
| EnableFileIncludes | MaxIncludeDepth | BaseDirectory | OutputFormat | Unsafe | ValidateUtf8
| GithubPreLang | Standalone | Pretty | StylesheetPaths | StylesheetCount | DocumentTitle
| ThemeName | TerminalWidth | Hardbreaks | Nobreaks | GenerateHeaderIds | HeaderAnchors | IdFormat
| RelaxedTables | CaptionPosition | PerCellAlignment | AllowMixedListMarkers | AllowAlphaLists
| EnableSupSub | EnableStrikethrough | EnableAutolink | ObfuscateEmails | EmbedImages
| EnableImageCaptions | TitleCaptionsOnly | EnableCitations | BibliographyFiles | CslFile
| SuppressBibliography | LinkCitations | ShowTooltips | Nocite | EnableIndices
| EnableMmarkIndexSyntax | EnableTextindexSyntax | EnableLeanpubIndexSyntax | SuppressIndex
| GroupIndexByLetter | WikilinkSpace | WikilinkExtension | WikilinkSanitize | ScriptTags
| EmbedStylesheet | EnableAria | EnableEmojiAutocorrect | CodeHighlighter | CodeLineNumbers
| HighlightLanguageOnly | EnableWidont | CodeIsPoetry | EnableMarkdownInHtml | RandomFootnoteIds
| EnableHashtags | StyleHashtags | ProofreaderMode | HrPageBreak | TitleFromH1
| PageBreakBeforeFootnotes | InputFilePath | AstFilterCommands | AstFilterCount | AstFilterStrict.

(** Their values: bool, int, pointer to a string, pointer to an array of strings. *)
Inductive val :=
| Vb (b : bool) | Vn (n : Z) | Vs (s : option (list ascii)) | Vl (l : option (list (list ascii))).

Definition opts := field -> val.

(** Equality of members, by their position. *)
Definition pos (f : field) : N :=
  match f with
  | Mode => 0 | EnablePlugins => 1 | EnableTables => 2 | EnableFootnotes => 3
  | EnableDefinitionLists => 4 | EnableSmartTypography => 5 | EnableMath => 6
  | EnableCriticMarkup => 7 | EnableWikiLinks => 8 | EnableTaskLists => 9
  | EnableAttributes => 10 | EnableCallouts => 11 | EnableMarkedExtensions => 12
  | EnableDivs => 13 | EnableSpans => 14 | CriticMode => 15 | StripMetadata => 16
  | EnableMetadataVariables => 17 | EnableMetadataTransforms => 18 | EnableFileIncludes => 19
  | MaxIncludeDepth => 20 | BaseDirectory => 21 | OutputFormat => 22 | Unsafe => 23
  | ValidateUtf8 => 24 | GithubPreLang => 25 | Standalone => 26 | Pretty => 27
  | StylesheetPaths => 28 | StylesheetCount => 29 | DocumentTitle => 30 | ThemeName => 31
  | TerminalWidth => 32 | Hardbreaks => 33 | Nobreaks => 34 | GenerateHeaderIds => 35
  | HeaderAnchors => 36 | IdFormat => 37 | RelaxedTables => 38 | CaptionPosition => 39
  | PerCellAlignment => 40 | AllowMixedListMarkers => 41 | AllowAlphaLists => 42
  | EnableSupSub => 43 | EnableStrikethrough => 44 | EnableAutolink => 45
  | ObfuscateEmails => 46 | EmbedImages => 47 | EnableImageCaptions => 48
  | TitleCaptionsOnly => 49 | EnableCitations => 50 | BibliographyFiles => 51 | CslFile => 52
  | SuppressBibliography => 53 | LinkCitations => 54 | ShowTooltips => 55 | Nocite => 56
  | EnableIndices => 57 | EnableMmarkIndexSyntax => 58 | EnableTextindexSyntax => 59
  | EnableLeanpubIndexSyntax => 60 | SuppressIndex => 61 | GroupIndexByLetter => 62
  | WikilinkSpace => 63 | WikilinkExtension => 64 | WikilinkSanitize => 65 | ScriptTags => 66
  | EmbedStylesheet => 67 | EnableAria => 68 | EnableEmojiAutocorrect => 69
  | CodeHighlighter => 70 | CodeLineNumbers => 71 | HighlightLanguageOnly => 72
  | EnableWidont => 73 | CodeIsPoetry => 74 | EnableMarkdownInHtml => 75
  | RandomFootnoteIds => 76 | EnableHashtags => 77 | StyleHashtags => 78
  | ProofreaderMode => 79 | HrPageBreak => 80 | TitleFromH1 => 81
  | PageBreakBeforeFootnotes => 82 | InputFilePath => 83 | AstFilterCommands => 84
  | AstFilterCount => 85 | AstFilterStrict => 86
  end%N.
Definition same (f g : field) : bool := N.eqb (pos f) (pos g).

(** One assignment, and a sequence of assignments. *)
Notation assign := (field * val)%type (only parsing).
Definition set (a : assign) (o : opts) : opts := fun g => if same g (fst a) then snd a else o g.
Fixpoint set_all (l : list assign) (o : opts) : opts :=
  match l with
  | [] => o
  | a :: l' => set_all l' (set a o)
  end.

Definition on : val := Vb true.
Definition off : val := Vb false.
Definition nul_s : val := Vs None.
Definition nul_l : val := Vl None.
Definition is_on (v : val) : bool := match v with Vb b => b | _ => false end.

(** ** apex.c 2475-2621, apex_options_default *)
Definition default : opts := fun f =>
  match f with
  | Mode => Vn 4
  | EnablePlugins => off
  | EnableTables | EnableFootnotes | EnableDefinitionLists | EnableSmartTypography
  | EnableMath | EnableCriticMarkup => on
  | EnableWikiLinks => off
  | EnableTaskLists | EnableAttributes | EnableCallouts | EnableMarkedExtensions
  | EnableDivs | EnableSpans => on
  | CriticMode => Vn 2
  | StripMetadata | EnableMetadataVariables | EnableMetadataTransforms => on
  | EnableFileIncludes => on
  | MaxIncludeDepth => Vn 10
  | BaseDirectory => nul_s
  | OutputFormat => Vn 0
  | Unsafe | ValidateUtf8 | GithubPreLang => on
  | Standalone | Pretty => off
  | StylesheetPaths => nul_l
  | StylesheetCount => Vn 0
  | DocumentTitle => nul_s
  | Hardbreaks | Nobreaks => off
  | GenerateHeaderIds => on
  | HeaderAnchors => off
  | IdFormat => Vn 0
  | RelaxedTables => on
  | CaptionPosition => Vn 1
  | PerCellAlignment => on
  | AllowMixedListMarkers | AllowAlphaLists => on
  | EnableSupSub => on
  | EnableStrikethrough => on
  | EnableAutolink => on
  | ObfuscateEmails => off
  | EmbedImages => off
  | EnableImageCaptions => on
  | TitleCaptionsOnly => off
  | EnableCitations => off
  | BibliographyFiles => nul_l
  | CslFile => nul_s
  | SuppressBibliography | LinkCitations | ShowTooltips => off
  | Nocite => nul_s
  | EnableIndices | EnableMmarkIndexSyntax | EnableTextindexSyntax
  | EnableLeanpubIndexSyntax | SuppressIndex => off
  | GroupIndexByLetter => on
  | WikilinkSpace => Vn 0
  | WikilinkExtension => nul_s
  | WikilinkSanitize => off
  | ScriptTags => nul_l
  | EmbedStylesheet => off
  | EnableAria => off
  | EnableEmojiAutocorrect => on
  | CodeHighlighter => nul_s
  | CodeLineNumbers | HighlightLanguageOnly => off
  | EnableWidont | CodeIsPoetry => off
  | EnableMarkdownInHtml => on
  | RandomFootnoteIds | EnableHashtags | StyleHashtags | ProofreaderMode | HrPageBreak
  | TitleFromH1 | PageBreakBeforeFootnotes => off
  | InputFilePath => nul_s
  | AstFilterCommands => nul_l
  | AstFilterCount => Vn 0
  | AstFilterStrict => on
  | ThemeName => nul_s
  | TerminalWidth => Vn 0
  end.

(** ** apex.c 2626-2800, apex_options_for_mode *)

(** 2631-2665 *)
Definition commonmark_case : list assign :=
  [(EnableTables, off); (EnableFootnotes, off); (EnableDefinitionLists, off);
   (EnableSmartTypography, off); (EnableMath, off); (EnableCriticMarkup, off);
   (EnableWikiLinks, off); (EnableTaskLists, off); (EnableAttributes, off);
   (EnableCallouts, off); (EnableMarkedExtensions, off); (EnableDivs, off); (EnableSpans, off);
   (EnableFileIncludes, off); (EnableMetadataVariables, off); (EnableMetadataTransforms, off);
   (Unsafe, off); (Hardbreaks, off); (IdFormat, Vn 0); (RelaxedTables, off);
   (PerCellAlignment, off); (AllowMixedListMarkers, off); (AllowAlphaLists, off);
   (EnableSupSub, off); (EnableStrikethrough, off); (EnableAutolink, off);
   (EnableImageCaptions, off); (EnableCitations, off); (EnableEmojiAutocorrect, off);
   (EnableMarkdownInHtml, off)].

(** 2667-2700 *)
Definition gfm_case : list assign :=
  [(EnableTables, on); (EnableTaskLists, on); (EnableFootnotes, off);
   (EnableDefinitionLists, off); (EnableSmartTypography, off); (EnableMath, off);
   (EnableCriticMarkup, off); (EnableWikiLinks, off); (EnableAttributes, off);
   (EnableCallouts, off); (EnableMarkedExtensions, off); (EnableDivs, off); (EnableSpans, off);
   (EnableFileIncludes, off); (EnableMetadataVariables, off); (EnableMetadataTransforms, off);
   (Unsafe, off); (Hardbreaks, on); (IdFormat, Vn 0); (RelaxedTables, off);
   (PerCellAlignment, off); (AllowMixedListMarkers, off); (AllowAlphaLists, off);
   (EnableSupSub, off); (EnableStrikethrough, on); (EnableAutolink, on);
   (EnableImageCaptions, off); (EnableCitations, off); (EnableEmojiAutocorrect, off);
   (EnableMarkdownInHtml, off)].

(** 2702-2737 *)
Definition mmd_case : list assign :=
  [(EnableTables, on); (EnableFootnotes, on); (RelaxedTables, off); (PerCellAlignment, off);
   (EnableDefinitionLists, on); (EnableSmartTypography, on); (EnableMath, on);
   (EnableCriticMarkup, off); (EnableWikiLinks, off); (EnableTaskLists, off);
   (EnableAttributes, off); (EnableCallouts, off); (EnableMarkedExtensions, off);
   (EnableDivs, off); (EnableSpans, off); (EnableFileIncludes, on);
   (EnableMetadataVariables, on); (EnableMetadataTransforms, off); (Hardbreaks, off);
   (IdFormat, Vn 1); (AllowMixedListMarkers, on); (AllowAlphaLists, off);
   (EnableCitations, on); (EnableSupSub, on); (EnableStrikethrough, off);
   (EnableAutolink, on); (EnableIndices, off); (EnableMmarkIndexSyntax, off);
   (EnableTextindexSyntax, off); (EnableLeanpubIndexSyntax, off);
   (EnableEmojiAutocorrect, off); (EnableImageCaptions, on)].

(** 2739-2773 *)
Definition kramdown_case : list assign :=
  [(EnableTables, on); (EnableFootnotes, on); (EnableDefinitionLists, on);
   (EnableSmartTypography, on); (EnableMath, on); (EnableCriticMarkup, off);
   (EnableWikiLinks, off); (EnableTaskLists, off); (EnableAttributes, on);
   (EnableCallouts, off); (EnableMarkedExtensions, on); (EnableDivs, off); (EnableSpans, off);
   (EnableFileIncludes, off); (EnableMetadataVariables, off); (EnableMetadataTransforms, off);
   (Hardbreaks, off); (IdFormat, Vn 2); (RelaxedTables, on); (PerCellAlignment, off);
   (AllowMixedListMarkers, off); (AllowAlphaLists, off); (EnableSupSub, off);
   (EnableStrikethrough, off); (EnableAutolink, on); (EnableCitations, off);
   (EnableEmojiAutocorrect, off); (EnableImageCaptions, off)].

(** 2775-2797 *)
Definition unified_case : list assign :=
  [(EnableWikiLinks, off); (EnableMath, on); (IdFormat, Vn 0); (RelaxedTables, on);
   (PerCellAlignment, on); (AllowMixedListMarkers, on); (AllowAlphaLists, on);
   (EnableSupSub, on); (EnableStrikethrough, on); (Unsafe, on); (EnableCitations, on);
   (EnableIndices, on); (EnableMmarkIndexSyntax, on); (EnableTextindexSyntax, on);
   (EnableLeanpubIndexSyntax, on); (EnableDivs, on); (EnableSpans, on);
   (EnableEmojiAutocorrect, on); (EnableImageCaptions, on)].

(** The switch has no default case. *)
Definition for_mode (m : Z) : opts :=
  set_all (match m with
           | 0%Z => commonmark_case
           | 1%Z => gfm_case
           | 2%Z => mmd_case
           | 3%Z => kramdown_case
           | 4%Z => unified_case
           | _ => []
           end) (set (Mode, Vn m) default).

(** ** apex.c 2805-2846 and 2851-2926: what the parser is given *)

(** The bits of the cmark option word (2808-2843). *)
Inductive bit := BValidateUtf8 | BUnsafe | BLiberalHtmlTag | BHardbreaks | BNobreaks
               | BGithubPreLang | BFootnotes | BSmart.
Definition when {A} (v : val) (l : list A) : list A := if is_on v then l else [].
Definition cmark_options (o : opts) : list bit :=
  when (o ValidateUtf8) [BValidateUtf8] ++ when (o Unsafe) [BUnsafe; BLiberalHtmlTag] ++
  when (o Hardbreaks) [BHardbreaks] ++ when (o Nobreaks) [BNobreaks] ++
  when (o GithubPreLang) [BGithubPreLang] ++ when (o EnableFootnotes) [BFootnotes] ++
  when (o EnableSmartTypography) [BSmart].

(** The extensions attached, in order (all of them are found, 2851-2926). *)
Inductive ext := XTable | XTasklist | XStrikethrough | XAutolink | XTagfilter | XMath | XDeflist
               | XAdvFootnotes | XAdvTables (per_cell : bool).
Definition mode_is (m : Z) (o : opts) : bool :=
  match o Mode with Vn n => Z.eqb n m | _ => false end.
Definition extensions (o : opts) : list ext :=
  when (o EnableTables) [XTable] ++ when (o EnableTaskLists) [XTasklist] ++
  when (o EnableStrikethrough) [XStrikethrough] ++
  when (Vb (is_on (o EnableAutolink) && (mode_is 1 o || mode_is 4 o))) [XAutolink] ++
  when (Vb (mode_is 1 o)) [XTagfilter] ++
  when (o EnableMath) [XMath] ++ when (o EnableDefinitionLists) [XDeflist] ++
  when (o EnableFootnotes) [XAdvFootnotes] ++
  when (o EnableTables) [XAdvTables (is_on (o PerCellAlignment))].

(** ** metadata.c 2445-2855, apex_apply_metadata_to_options *)

(** [strcmp(s, name) == 0] for one of the names. *)
Fixpoint one_of (s : str) (names : list str) : bool :=
  match names with
  | [] => false
  | n :: r => seq_ s n || one_of s r
  end.

(** 2455-2471 and main.c 1453-1463, on a lower-cased name. *)
Definition mode_named (s : str) : option Z :=
  if seq_ s (B "commonmark") then Some 0%Z
  else if seq_ s (B "gfm") then Some 1%Z
  else if seq_ s (B "mmd") || seq_ s (B "multimarkdown") then Some 2%Z
  else if seq_ s (B "kramdown") then Some 3%Z
  else if seq_ s (B "unified") then Some 4%Z
  else None.

(** 2448-2477: only the first item with this key counts. *)
Fixpoint mode_pass (m : meta) (o : opts) : opts :=
  match m with
  | [] => o
  | (k, v) :: m' =>
      if casecmp k (B "mode") then
        match mode_named (map tolower v) with
        | Some n => for_mode n
        | None => o
        end
      else mode_pass m' o
  end.

(** atoi; a number that is no int is undefined in C and is not treated. *)
Definition atoi (s : str) : Z :=
  let s1 := snd (span isspace s) in
  let digits t := fold_left (fun a c => (a * 10 + Z.of_N (code c) - 48)%Z) (fst (span isdigit t)) 0%Z in
  match s1 with
  | c :: t => if ceq c "-" then (- digits t)%Z else if ceq c "+" then digits t else digits s1
  | [] => 0%Z
  end.

(** What one key does: on and off lists for the truth words, or a function of the
    value and the present options. *)
Inductive keyact :=
| Switch (ons offs : list assign)
| Act (f : str -> opts -> list assign).
Definition flag (f : field) : keyact := Switch [(f, on)] [(f, off)].

(** 2786-2796 and main.c 1804-1814. *)
Definition id_format_named (s : str) : option Z :=
  if seq_ s (B "gfm") then Some 0%Z else if seq_ s (B "mmd") then Some 1%Z
  else if seq_ s (B "kramdown") then Some 2%Z else None.
(** 2785-2799 and main.c 1952-1963. *)
Definition space_named (s : str) : option Z :=
  if seq_ s (B "dash") then Some 0%Z else if seq_ s (B "none") then Some 1%Z
  else if seq_ s (B "underscore") then Some 2%Z else if seq_ s (B "space") then Some 3%Z else None.
(** 2829-2838 and main.c 1845-1854. *)
Definition highlighter_named (s : str) : option str :=
  if one_of s [B "pygments"; B "p"; B "pyg"] then Some (B "pygments")
  else if one_of s [B "skylighting"; B "s"; B "sky"] then Some (B "skylighting")
  else if one_of s [B "shiki"; B "sh"] then Some (B "shiki") else None.

(** 2494-2852, the chain of comparisons. *)
Definition keys : list (list str * keyact) :=
  [([B "indices"],
     Switch [(EnableIndices, on); (EnableMmarkIndexSyntax, on); (EnableTextindexSyntax, on)]
            [(EnableIndices, off)]);
   ([B "wikilinks"; B "wiki-links"], flag EnableWikiLinks);
   ([B "includes"; B "file-includes"], flag EnableFileIncludes);
   ([B "relaxed-tables"; B "relaxed_tables"], flag RelaxedTables);
   ([B "alpha-lists"; B "alpha_lists"], flag AllowAlphaLists);
   ([B "mixed-lists"; B "mixed_lists"], flag AllowMixedListMarkers);
   ([B "sup-sub"; B "sup_sub"], flag EnableSupSub);
   ([B "autolink"], flag EnableAutolink);
   ([B "strikethrough"; B "strike-through"], flag EnableStrikethrough);
   ([B "transforms"; B "metadata-transforms"], flag EnableMetadataTransforms);
   ([B "unsafe"], flag Unsafe);
   ([B "plugins"; B "enable-plugins"; B "enable_plugins"], flag EnablePlugins);
   ([B "tables"], flag EnableTables);
   ([B "footnotes"], flag EnableFootnotes);
   ([B "smart"; B "smart-typography"], flag EnableSmartTypography);
   ([B "math"], flag EnableMath);
   ([B "ids"; B "header-ids"], flag GenerateHeaderIds);
   ([B "header-anchors"; B "header_anchors"], flag HeaderAnchors);
   ([B "embed-images"; B "embed_images"], flag EmbedImages);
   ([B "image-captions"; B "image_captions"], flag EnableImageCaptions);
   ([B "title-captions-only"; B "title_captions_only"],
     Switch [(TitleCaptionsOnly, on); (EnableImageCaptions, on)] [(TitleCaptionsOnly, off)]);
   ([B "link-citations"; B "link_citations"], flag LinkCitations);
   ([B "show-tooltips"; B "show_tooltips"], flag ShowTooltips);
   ([B "suppress-bibliography"; B "suppress_bibliography"], flag SuppressBibliography);
   ([B "suppress-index"; B "suppress_index"], flag SuppressIndex);
   ([B "group-index-by-letter"; B "group_index_by_letter"], flag GroupIndexByLetter);
   ([B "obfuscate-emails"; B "obfuscate_emails"], flag ObfuscateEmails);
   ([B "pretty"], flag Pretty);
   ([B "standalone"], flag Standalone);
   ([B "hardbreaks"; B "hard-breaks"], flag Hardbreaks);
   ([B "widont"], flag EnableWidont);
   ([B "code-is-poetry"; B "code_is_poetry"],
     Switch [(CodeIsPoetry, on); (HighlightLanguageOnly, on)] [(CodeIsPoetry, off)]);
   ([B "markdown-in-html"; B "markdown_in_html"], flag EnableMarkdownInHtml);
   ([B "random-footnote-ids"; B "random_footnote_ids"], flag RandomFootnoteIds);
   ([B "hashtags"], flag EnableHashtags);
   ([B "style-hashtags"; B "style_hashtags"], flag StyleHashtags);
   ([B "proofreader"],
     Switch [(ProofreaderMode, on); (EnableCriticMarkup, on); (CriticMode, Vn 2)]
            [(ProofreaderMode, off)]);
   ([B "hr-page-break"; B "hr_page_break"], flag HrPageBreak);
   ([B "title-from-h1"; B "title_from_h1"], flag TitleFromH1);
   ([B "page-break-before-footnotes"; B "page_break_before_footnotes"],
     flag PageBreakBeforeFootnotes);
   ([B "bibliography"], Act (fun _ _ => [(EnableCitations, on)]));
   ([B "csl"], Act (fun v _ => [(CslFile, Vs (Some v)); (EnableCitations, on)]));
   ([B "title"], Act (fun v _ => [(DocumentTitle, Vs (Some v))]));
   ([B "style"; B "css"],
     Act (fun v _ => [(StylesheetPaths, Vl (Some [v])); (StylesheetCount, Vn 1); (Standalone, on)]));
   ([B "id-format"; B "id_format"],
     Act (fun v _ => match id_format_named (map tolower v) with
                     | Some n => [(IdFormat, Vn n)] | None => [] end));
   ([B "base-dir"; B "base_dir"], Act (fun v _ => [(BaseDirectory, Vs (Some v))]));
   ([B "wikilink-space"; B "wikilink_space"],
     Act (fun v _ => match space_named (map tolower v) with
                     | Some n => [(WikilinkSpace, Vn n)] | None => [] end));
   ([B "wikilink-extension"; B "wikilink_extension"],
     Act (fun v _ => [(WikilinkExtension, Vs (Some v))]));
   ([B "wikilink-sanitize"; B "wikilink_sanitize"],
     Act (fun v _ => [(WikilinkSanitize, Vb (casecmp v (B "true") || seq_ v (B "1")))]));
   ([B "terminal.theme"; B "terminal_theme"],
     Act (fun v o => match o ThemeName with
                     | Vs (Some (_ :: _)) => []
                     | _ => [(ThemeName, Vs (Some v))] end));
   ([B "terminal.width"; B "terminal_width"],
     Act (fun v _ => if (0 <? atoi v)%Z then [(TerminalWidth, Vn (atoi v))] else []));
   ([B "code-highlight"; B "code_highlight"],
     Act (fun v _ => let l := map tolower v in
                     match highlighter_named l with
                     | Some h => [(CodeHighlighter, Vs (Some h))]
                     | None => if is_false_value l || seq_ l (B "none")
                               then [(CodeHighlighter, Vs None)] else []
                     end));
   ([B "code-line-numbers"; B "code_line_numbers"], flag CodeLineNumbers);
   ([B "highlight-language-only"; B "highlight_language_only"], flag HighlightLanguageOnly)].

(** strcasecmp against the names of one branch, and the first branch that applies. *)
Fixpoint case_of (k : str) (names : list str) : bool :=
  match names with
  | [] => false
  | n :: r => casecmp k n || case_of k r
  end.
Fixpoint find_key {A} (k : str) (table : list (list str * A)) : option A :=
  match table with
  | [] => None
  | (names, a) :: r => if case_of k names then Some a else find_key k r
  end.
Definition run_key (a : keyact) (v : str) (o : opts) : list assign :=
  match a with
  | Switch ons offs => if is_true_value v then ons else if is_false_value v then offs else []
  | Act f => f v o
  end.

(** 2479-2854: one item, then all of them. *)
Definition meta_item (k v : str) (o : opts) : opts :=
  if casecmp k (B "mode") then o
  else match find_key k keys with
       | Some a => set_all (run_key a v o) o
       | None => o
       end.
Fixpoint item_pass (m : meta) (o : opts) : opts :=
  match m with
  | [] => o
  | (k, v) :: m' => item_pass m' (meta_item k v o)
  end.
Definition apply_metadata (m : meta) (o : opts) : opts := item_pass m (mode_pass m o).

(** ** cli/main.c 1380-2130: the arguments *)

(** What main remembers besides the options. *)
Record extra := Extra {
  x_plugins : option bool;        (** plugins_cli_override / plugins_cli_value *)
  x_input : option (list ascii); x_output : option (list ascii); x_meta_file : option (list ascii);
  x_meta : list (list ascii * list ascii);   (** cmdline_metadata *)
  x_bib : list (list ascii); x_css : list (list ascii); x_scripts : list (list ascii);
  x_filters : list (list ascii); x_all_filters : bool; x_strict : bool; x_lua : list (list ascii);
  x_width : Z;
  x_combine : bool; x_combine_files : list (list ascii);
  x_merge : bool; x_merge_files : list (list ascii);
  x_other : list (list ascii)     (** plugin and filter management, progress: the arguments *)
}.
Definition extra0 : extra :=
  Extra None None None None [] [] [] [] [] false true [] 0%Z false [] false [] [].
Definition x_set_plugins b x := Extra (Some b) (x_input x) (x_output x) (x_meta_file x) (x_meta x)
  (x_bib x) (x_css x) (x_scripts x) (x_filters x) (x_all_filters x) (x_strict x) (x_lua x) (x_width x)
  (x_combine x) (x_combine_files x) (x_merge x) (x_merge_files x) (x_other x).
Definition x_set_files i o mf x := Extra (x_plugins x) i o mf (x_meta x)
  (x_bib x) (x_css x) (x_scripts x) (x_filters x) (x_all_filters x) (x_strict x) (x_lua x) (x_width x)
  (x_combine x) (x_combine_files x) (x_merge x) (x_merge_files x) (x_other x).
Definition x_set_meta m x := Extra (x_plugins x) (x_input x) (x_output x) (x_meta_file x) m
  (x_bib x) (x_css x) (x_scripts x) (x_filters x) (x_all_filters x) (x_strict x) (x_lua x) (x_width x)
  (x_combine x) (x_combine_files x) (x_merge x) (x_merge_files x) (x_other x).
Definition x_set_lists b c s f l x := Extra (x_plugins x) (x_input x) (x_output x) (x_meta_file x)
  (x_meta x) b c s f (x_all_filters x) (x_strict x) l (x_width x)
  (x_combine x) (x_combine_files x) (x_merge x) (x_merge_files x) (x_other x).
Definition x_set_filters a st x := Extra (x_plugins x) (x_input x) (x_output x) (x_meta_file x)
  (x_meta x) (x_bib x) (x_css x) (x_scripts x) (x_filters x) a st (x_lua x) (x_width x)
  (x_combine x) (x_combine_files x) (x_merge x) (x_merge_files x) (x_other x).
Definition x_set_width w x := Extra (x_plugins x) (x_input x) (x_output x) (x_meta_file x)
  (x_meta x) (x_bib x) (x_css x) (x_scripts x) (x_filters x) (x_all_filters x) (x_strict x) (x_lua x) w
  (x_combine x) (x_combine_files x) (x_merge x) (x_merge_files x) (x_other x).
Definition x_set_multi c cf g gf x := Extra (x_plugins x) (x_input x) (x_output x) (x_meta_file x)
  (x_meta x) (x_bib x) (x_css x) (x_scripts x) (x_filters x) (x_all_filters x) (x_strict x) (x_lua x)
  (x_width x) c cf g gf (x_other x).
Definition x_set_other l x := Extra (x_plugins x) (x_input x) (x_output x) (x_meta_file x)
  (x_meta x) (x_bib x) (x_css x) (x_scripts x) (x_filters x) (x_all_filters x) (x_strict x) (x_lua x)
  (x_width x) (x_combine x) (x_combine_files x) (x_merge x) (x_merge_files x) l.
Definition x_add_bib s x := x_set_lists (x_bib x ++ [s]) (x_css x) (x_scripts x) (x_filters x) (x_lua x) x.
Definition x_add_css l x := x_set_lists (x_bib x) (x_css x ++ l) (x_scripts x) (x_filters x) (x_lua x) x.
Definition x_add_scripts l x := x_set_lists (x_bib x) (x_css x) (x_scripts x ++ l) (x_filters x) (x_lua x) x.
Definition x_add_filter s x := x_set_lists (x_bib x) (x_css x) (x_scripts x) (x_filters x ++ [s]) (x_lua x) x.
Definition x_add_lua s x := x_set_lists (x_bib x) (x_css x) (x_scripts x) (x_filters x) (x_lua x ++ [s]) x.
Definition x_add_other s x := x_set_other (x_other x ++ [s]) x.

(** 1468-1492, on the name given to --to. *)
Definition format_named (s : str) : option Z :=
  if seq_ s (B "html") then Some 0%Z
  else if seq_ s (B "json") then Some 1%Z
  else if one_of s [B "json-filtered"; B "ast-json"; B "ast"] then Some 2%Z
  else if one_of s [B "markdown"; B "md"] then Some 3%Z
  else if seq_ s (B "mmd") then Some 4%Z
  else if one_of s [B "commonmark"; B "cmark"] then Some 5%Z
  else if seq_ s (B "kramdown") then Some 6%Z
  else if seq_ s (B "gfm") then Some 7%Z
  else if one_of s [B "terminal"; B "cli"] then Some 8%Z
  else if seq_ s (B "terminal256") then Some 9%Z
  else if seq_ s (B "man") then Some 10%Z
  else if seq_ s (B "man-html") then Some 11%Z
  else None.

(** 1635-1688: the comma-separated list given to --css.  [start] is the part read
    since the last comma. *)
Definition blank (c : ascii) : bool := ceq c SP || ceq c TAB.
Fixpoint rtrim_by (f : ascii -> bool) (s : str) : str :=
  match s with
  | [] => []
  | c :: s' => match rtrim_by f s' with
               | [] => if f c then [] else [c]
               | r => c :: r
               end
  end.
Definition trim_by (f : ascii -> bool) (s : str) : str := rtrim_by f (snd (span f s)).
Definition path_of (s : str) : list str := match trim_by blank s with [] => [] | p => [p] end.
Fixpoint css_paths (acc s : str) : list str :=
  match s with
  | [] => path_of (rev acc)
  | c :: s' => if ceq c "," then path_of (rev acc) ++ css_paths [] s' else css_paths (c :: acc) s'
  end.

(** 1693-1795: the comma-separated list given to --script.  The tags of the known
    names are kept as given by [known]; [None]: a value too long for the buffer. *)
Definition white (c : ascii) : bool := blank c || ceq c NL || ceq c CR.
Fixpoint pieces (acc s : str) : list str :=
  match s with
  | [] => [rev acc]
  | c :: s' => if ceq c "," then rev acc :: pieces [] s' else pieces (c :: acc) s'
  end.
Definition script_src (s : str) : str := B "<script src=""" ++ s ++ B """></script>".
Fixpoint script_tags (known : str -> option (list str)) (l : list str) : option (list str) :=
  match l with
  | [] => Some []
  | p :: l' =>
      match trim_by white p with
      | [] => script_tags known l'
      | t =>
          match (match known t with
                 | Some tags => Some tags
                 | None => if 2048 <=? length (script_src t) then None else Some [script_src t]
                 end), script_tags known l' with
          | Some a, Some b => Some (a ++ b)
          | _, _ => None
          end
      end
  end.

(** What an argument does.  [Set0]: assignments and a note; [Set1]: the same from
    the next argument, [None] being an error; [Reset]: -m; [Stop]: exit 0. *)
Inductive argact :=
| Stop
| Reset
| Set0 (l : list assign) (x : extra -> extra)
| Set1 (f : str -> option (list assign * (extra -> extra))).
Definition just (l : list assign) : argact := Set0 l (fun x => x).
Definition note (x : extra -> extra) : argact := Set0 [] x.
Definition arg1 (f : str -> list assign) : argact := Set1 (fun v => Some (f v, fun x => x)).
Definition pick {A} (f : field) (named : str -> option A) (wrap : A -> val) : argact :=
  Set1 (fun v => match named v with Some n => Some ([(f, wrap n)], fun x => x) | None => None end).

(** 1444-2046, the chain of comparisons. *)
Definition arguments (known : str -> option (list str)) : list (list str * argact) :=
  [([B "-h"; B "--help"], Stop);
   ([B "-v"; B "--version"], Stop);
   ([B "-m"; B "--mode"], Reset);
   ([B "-t"; B "--to"], pick OutputFormat format_named Vn);
   ([B "--theme"], arg1 (fun v => [(ThemeName, Vs (Some v))]));
   ([B "--width"], Set1 (fun v => Some ([], x_set_width (Z.max 0 (atoi v)))));
   ([B "-o"; B "--output"],
     Set1 (fun v => Some ([], fun x => x_set_files (x_input x) (Some v) (x_meta_file x) x)));
   ([B "--plugins"], Set0 [(EnablePlugins, on)] (x_set_plugins true));
   ([B "--no-plugins"], Set0 [(EnablePlugins, off)] (x_set_plugins false));
   ([B "--list-plugins"], note (x_add_other (B "--list-plugins")));
   ([B "--install-plugin"], Set1 (fun v => Some ([], x_add_other v)));
   ([B "--list-filters"], note (x_add_other (B "--list-filters")));
   ([B "--install-filter"], Set1 (fun v => Some ([], x_add_other v)));
   ([B "--uninstall-filter"], Set1 (fun v => Some ([], x_add_other v)));
   ([B "--filter"], Set1 (fun v => Some ([], x_add_filter v)));
   ([B "--filters"], note (fun x => x_set_filters true (x_strict x) x));
   ([B "--no-strict-filters"], note (fun x => x_set_filters (x_all_filters x) false x));
   ([B "--lua-filter"], Set1 (fun v => Some ([], x_add_lua v)));
   ([B "--uninstall-plugin"], Set1 (fun v => Some ([], x_add_other v)));
   ([B "--no-tables"], just [(EnableTables, off)]);
   ([B "--no-footnotes"], just [(EnableFootnotes, off)]);
   ([B "--no-smart"], just [(EnableSmartTypography, off)]);
   ([B "--no-math"], just [(EnableMath, off)]);
   ([B "--includes"], just [(EnableFileIncludes, on)]);
   ([B "--no-includes"], just [(EnableFileIncludes, off)]);
   ([B "--hardbreaks"], just [(Hardbreaks, on)]);
   ([B "-s"; B "--standalone"], just [(Standalone, on)]);
   ([B "--css"; B "--style"],
     Set1 (fun v => Some ([(Standalone, on)], x_add_css (css_paths [] v))));
   ([B "--embed-css"], just [(EmbedStylesheet, on)]);
   ([B "--script"],
     Set1 (fun v => match script_tags known (pieces [] v) with
                    | Some l => Some ([], x_add_scripts l)
                    | None => None
                    end));
   ([B "--title"], arg1 (fun v => [(DocumentTitle, Vs (Some v))]));
   ([B "--pretty"], just [(Pretty, on)]);
   ([B "--accept"], just [(EnableCriticMarkup, on); (CriticMode, Vn 0)]);
   ([B "--reject"], just [(EnableCriticMarkup, on); (CriticMode, Vn 1)]);
   ([B "--id-format"], pick IdFormat id_format_named Vn);
   ([B "--no-ids"], just [(GenerateHeaderIds, off)]);
   ([B "--header-anchors"], just [(HeaderAnchors, on)]);
   ([B "--relaxed-tables"], just [(RelaxedTables, on)]);
   ([B "--no-relaxed-tables"], just [(RelaxedTables, off)]);
   ([B "--per-cell-alignment"], just [(PerCellAlignment, on)]);
   ([B "--no-per-cell-alignment"], just [(PerCellAlignment, off)]);
   ([B "--captions"],
     pick CaptionPosition (fun v => if seq_ v (B "above") then Some 0%Z
                                    else if seq_ v (B "below") then Some 1%Z else None) Vn);
   ([B "--code-highlight"], pick CodeHighlighter highlighter_named (fun h => Vs (Some h)));
   ([B "--code-line-numbers"], just [(CodeLineNumbers, on)]);
   ([B "--highlight-language-only"], just [(HighlightLanguageOnly, on)]);
   ([B "--alpha-lists"], just [(AllowAlphaLists, on)]);
   ([B "--no-alpha-lists"], just [(AllowAlphaLists, off)]);
   ([B "--mixed-lists"], just [(AllowMixedListMarkers, on)]);
   ([B "--no-mixed-lists"], just [(AllowMixedListMarkers, off)]);
   ([B "--unsafe"], just [(Unsafe, on)]);
   ([B "--no-unsafe"], just [(Unsafe, off)]);
   ([B "--sup-sub"], just [(EnableSupSub, on)]);
   ([B "--no-sup-sub"], just [(EnableSupSub, off)]);
   ([B "--divs"], just [(EnableDivs, on)]);
   ([B "--no-divs"], just [(EnableDivs, off)]);
   ([B "--spans"], just [(EnableSpans, on)]);
   ([B "--no-spans"], just [(EnableSpans, off)]);
   ([B "--autolink"], just [(EnableAutolink, on)]);
   ([B "--no-autolink"], just [(EnableAutolink, off)]);
   ([B "--strikethrough"], just [(EnableStrikethrough, on)]);
   ([B "--no-strikethrough"], just [(EnableStrikethrough, off)]);
   ([B "--obfuscate-emails"], just [(ObfuscateEmails, on)]);
   ([B "--progress"], note (x_add_other (B "--progress")));
   ([B "--no-progress"], note (x_add_other (B "--no-progress")));
   ([B "--aria"], just [(EnableAria, on)]);
   ([B "--no-plugins"], just [(EnablePlugins, off)]);
   ([B "--wikilinks"], just [(EnableWikiLinks, on)]);
   ([B "--no-wikilinks"], just [(EnableWikiLinks, off)]);
   ([B "--emoji-autocorrect"], just [(EnableEmojiAutocorrect, on)]);
   ([B "--no-emoji-autocorrect"], just [(EnableEmojiAutocorrect, off)]);
   ([B "--widont"], just [(EnableWidont, on)]);
   ([B "--code-is-poetry"], just [(CodeIsPoetry, on); (HighlightLanguageOnly, on)]);
   ([B "--markdown-in-html"], just [(EnableMarkdownInHtml, on)]);
   ([B "--no-markdown-in-html"], just [(EnableMarkdownInHtml, off)]);
   ([B "--random-footnote-ids"], just [(RandomFootnoteIds, on)]);
   ([B "--hashtags"], just [(EnableHashtags, on)]);
   ([B "--style-hashtags"], just [(StyleHashtags, on)]);
   ([B "--proofreader"],
     just [(ProofreaderMode, on); (EnableCriticMarkup, on); (CriticMode, Vn 2)]);
   ([B "--hr-page-break"], just [(HrPageBreak, on)]);
   ([B "--title-from-h1"], just [(TitleFromH1, on)]);
   ([B "--page-break-before-footnotes"], just [(PageBreakBeforeFootnotes, on)]);
   ([B "--wikilink-space"], pick WikilinkSpace space_named Vn);
   ([B "--wikilink-extension"], arg1 (fun v => [(WikilinkExtension, Vs (Some v))]));
   ([B "--wikilink-sanitize"], just [(WikilinkSanitize, on)]);
   ([B "--no-wikilink-sanitize"], just [(WikilinkSanitize, off)]);
   ([B "--transforms"], just [(EnableMetadataTransforms, on)]);
   ([B "--no-transforms"], just [(EnableMetadataTransforms, off)]);
   ([B "--embed-images"], just [(EmbedImages, on)]);
   ([B "--image-captions"], just [(EnableImageCaptions, on)]);
   ([B "--no-image-captions"], just [(EnableImageCaptions, off)]);
   ([B "--title-captions-only"], just [(TitleCaptionsOnly, on); (EnableImageCaptions, on)]);
   ([B "--no-title-captions-only"], just [(TitleCaptionsOnly, off)]);
   ([B "--base-dir"], arg1 (fun v => [(BaseDirectory, Vs (Some v))]));
   ([B "--bibliography"], Set1 (fun v => Some ([(EnableCitations, on)], x_add_bib v)));
   ([B "--csl"], arg1 (fun v => [(CslFile, Vs (Some v)); (EnableCitations, on)]));
   ([B "--no-bibliography"], just [(SuppressBibliography, on)]);
   ([B "--link-citations"], just [(LinkCitations, on)]);
   ([B "--show-tooltips"], just [(ShowTooltips, on)]);
   ([B "--indices"],
     just [(EnableIndices, on); (EnableMmarkIndexSyntax, on); (EnableTextindexSyntax, on);
           (EnableLeanpubIndexSyntax, on)]);
   ([B "--no-indices"], just [(EnableIndices, off)]);
   ([B "--no-index"], just [(SuppressIndex, on)]);
   ([B "--meta-file"],
     Set1 (fun v => Some ([], fun x => x_set_files (x_input x) (x_output x) (Some v) x)))].

Fixpoint find_arg {A} (a : str) (table : list (list str * A)) : option A :=
  match table with
  | [] => None
  | (names, act) :: r => if one_of a names then Some act else find_arg a r
  end.

(** 2058-2070: metadata given with --meta ([None]: fuel of the reader). *)
Definition add_meta (v : str) (x : extra) : option extra :=
  option_map (fun m => x_set_meta (cli_meta (x_meta x) m) x) (parse_command v).

(** 2082-2117: a file name. *)
Definition positional (a : str) (x : extra) : extra :=
  if x_combine x then x_set_multi true (x_combine_files x ++ [a]) (x_merge x) (x_merge_files x) x
  else if x_merge x then
    x_set_multi (x_combine x) (x_combine_files x) true (x_merge_files x ++ [a]) x
  else x_set_files (Some a) (x_output x) (x_meta_file x) x.

(** 1444-2119, the loop.  [Exit n]: main returns [n]; [Fuel]: the reader of --meta
    ran out of fuel. *)
Inductive run := Exit (n : nat) | Fuel | Ready (o : opts) (x : extra).
Fixpoint parse_args (known : str -> option (list str)) (args : list str) (o : opts) (x : extra) : run :=
  match args with
  | [] => Ready o x
  | a :: rest =>
      match find_arg a (arguments known) with
      | Some Stop => Exit 0
      | Some Reset =>
          match rest with
          | [] => Exit 1
          | v :: rest' =>
              match mode_named v with
              | Some m => parse_args known rest' (for_mode m) x
              | None => Exit 1
              end
          end
      | Some (Set0 l f) => parse_args known rest (set_all l o) (f x)
      | Some (Set1 f) =>
          match rest with
          | [] => Exit 1
          | v :: rest' =>
              match f v with
              | Some (l, g) => parse_args known rest' (set_all l o) (g x)
              | None => Exit 1
              end
          end
      | None =>
          if starts (B "--meta") a then
            if ceq (at_ a 6) "=" then
              match add_meta (skipn 7 a) x with
              | Some x' => parse_args known rest o x'
              | None => Fuel
              end
            else
              match rest with
              | [] => Exit 1
              | v :: rest' => match add_meta v x with
                              | Some x' => parse_args known rest' o x'
                              | None => Fuel
                              end
              end
          else if seq_ a (B "--combine") then
            parse_args known rest o
              (x_set_multi true (x_combine_files x) (x_merge x) (x_merge_files x) x)
          else if seq_ a (B "--mmd-merge") then
            parse_args known rest o
              (x_set_multi (x_combine x) (x_combine_files x) true (x_merge_files x) x)
          else if ceq (at_ a 0) "-" then Exit 1
          else parse_args known rest o (positional a x)
      end
  end.
Definition main_args (known : str -> option (list str)) (args : list str) : run :=
  parse_args known args default extra0.

(** ** cli/main.c 2990-3014 and 3218-3260, 3475-3495: what the converter is given *)

(** The file to read comes from [x]; [dirname] is the library function.  [filters]
    are the filter commands found (3262-3473); [extract] is the metadata of the
    document. *)
Definition str_of (v : val) : option str := match v with Vs s => s | _ => None end.
Definition list_of (v : val) : option (list str) := match v with Vl l => l | _ => None end.

(** 2990-3014 *)
Definition set_paths (dirname : str -> str) (x : extra) (o : opts) : opts :=
  let o1 := match x_input x, str_of (o BaseDirectory) with
            | Some i, None =>
                let d := dirname i in
                if match d with [] => true | _ => false end || seq_ d (B ".") then o
                else set (BaseDirectory, Vs (Some d)) o
            | _, _ => o
            end in
  set (InputFilePath,
       match x_input x with
       | Some i => Vs (Some i)
       | None => match str_of (o1 BaseDirectory) with
                 | Some (c :: d) => Vs (Some (c :: d))
                 | _ => Vs None
                 end
       end) o1.

(** 3097-3099 *)
Definition reads_metadata (o : opts) : bool := mode_is 2 o || mode_is 3 o || mode_is 4 o.

(** 3218-3243 *)
Definition set_arrays (x : extra) (o : opts) : opts :=
  let o1 := match x_bib x with [] => o | l => set (BibliographyFiles, Vl (Some l)) o end in
  match x_css x with
  | [] => o1
  | l => set_all [(StylesheetPaths, Vl (Some l)); (StylesheetCount, Vn (Z.of_nat (length l)))] o1
  end.

(** 3247-3256 *)
Definition restore_arrays (x : extra) (o : opts) : opts :=
  let o1 := match x_bib x, list_of (o BibliographyFiles) with
            | [], _ | _, Some _ => o
            | l, None => set (BibliographyFiles, Vl (Some l)) o
            end in
  match x_css x, list_of (o1 StylesheetPaths) with
  | [], _ | _, Some _ => o1
  | l, None => set_all [(StylesheetPaths, Vl (Some l)); (StylesheetCount, Vn (Z.of_nat (length l)))] o1
  end.

Definition configure (dirname : str -> str) (global project explicit extract : meta)
  (filters : list str) (o : opts) (x : extra) : opts :=
  let o1 := set_paths dirname x o in
  let doc := if reads_metadata o1 then extract else [] in
  let merged := cli_merge global project explicit doc (x_meta x) in
  let o2 := set_arrays x o1 in
  let o3 := match merged with [] => o2 | _ => restore_arrays x (apply_metadata merged o2) end in
  let o4 := match x_plugins x with Some b => set (EnablePlugins, Vb b) o3 | None => o3 end in
  let o5 := match filters with
            | [] => o4
            | _ => set_all [(AstFilterCommands, Vl (Some filters));
                            (AstFilterCount, Vn (Z.of_nat (length filters)));
                            (AstFilterStrict, Vb (x_strict x))] o4
            end in
  match x_scripts x with [] => o5 | l => set (ScriptTags, Vl (Some l)) o5 end.
