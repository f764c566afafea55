(** Specification of the options: what the manual pages (man/apex.1.md,
    man/apex-config.5.md, docs/USER_GUIDE.md) say about modes, metadata keys and
    flags, written as tables from the option to what controls it. *)
From Verif Require Import Base M_Meta M_Opt.

Definition names (l : list string) : list (list ascii) := map B l.
Definition mem (s : str) (l : list (list ascii)) : bool :=
  if in_dec (list_eq_dec ascii_dec) s l then true else false.
Definition lower (s : str) : str := map tolower s.

(** ** Modes *)

Inductive flavour := CommonMark | Gfm | Mmd | Kramdown | Unified.
Definition number (m : flavour) : Z :=
  match m with CommonMark => 0 | Gfm => 1 | Mmd => 2 | Kramdown => 3 | Unified => 4 end%Z.

(** The modes that switch a feature on.  [None]: not a feature of modes. *)
Definition modes_with (f : field) : option (list flavour) :=
  match f with
  | EnableTables => Some [Gfm; Mmd; Kramdown; Unified]
  | EnableTaskLists | EnableStrikethrough => Some [Gfm; Unified]
  | EnableAutolink => Some [Gfm; Mmd; Kramdown; Unified]
  | Hardbreaks => Some [Gfm]
  | EnableFootnotes | EnableDefinitionLists | EnableSmartTypography | EnableMath
  | EnableMarkdownInHtml | Unsafe => Some [Mmd; Kramdown; Unified]
  | EnableFileIncludes | EnableMetadataVariables | EnableSupSub | EnableImageCaptions
  | EnableCitations | AllowMixedListMarkers => Some [Mmd; Unified]
  | EnableAttributes | EnableMarkedExtensions | RelaxedTables => Some [Kramdown; Unified]
  | EnableCriticMarkup | EnableCallouts | EnableDivs | EnableSpans | EnableMetadataTransforms
  | PerCellAlignment | AllowAlphaLists | EnableEmojiAutocorrect | EnableIndices
  | EnableMmarkIndexSyntax | EnableTextindexSyntax | EnableLeanpubIndexSyntax => Some [Unified]
  | EnableWikiLinks => Some []
  | _ => None
  end.
Definition flavour_dec (a b : flavour) : {a = b} + {a <> b}.
Proof. decide equality. Defined.
Definition id_style (m : flavour) : Z := match m with Mmd => 1 | Kramdown => 2 | _ => 0 end%Z.

(** The value of an option in a mode, given the defaults. *)
Definition in_mode (m : flavour) (d : opts) (f : field) : val :=
  match f, modes_with f with
  | Mode, _ => Vn (number m)
  | IdFormat, _ => Vn (id_style m)
  | _, Some l => Vb (if in_dec flavour_dec m l then true else false)
  | _, None => d f
  end.

(** ** Metadata keys *)

(** How the value of an item sets an option: a truth word; a fixed value when it is
    a word for true; a value read from the text. *)
Inductive effect := OnOff | Implies (v : val) | Reads (r : list ascii -> option val).
Definition truth (v : str) : option bool :=
  if mem (lower v) (names ["true"; "yes"; "1"]%string) then Some true
  else if mem (lower v) (names ["false"; "no"; "0"]%string) then Some false else None.
Definition means (e : effect) (v : str) : option val :=
  match e with
  | OnOff => option_map Vb (truth v)
  | Implies x => match truth v with Some true => Some x | _ => None end
  | Reads r => r v
  end.

Definition word (table : list (string * val)) (v : str) : option val :=
  option_map snd (find (fun p => mem v [B (fst p)]) table).

Definition text (v : str) : option val := Some (Vs (Some v)).
Definition id_words : list (string * val) := [("gfm", Vn 0); ("mmd", Vn 1); ("kramdown", Vn 2)]%string.
Definition space_words : list (string * val) :=
  [("dash", Vn 0); ("none", Vn 1); ("underscore", Vn 2); ("space", Vn 3)]%string.
Definition tool_words : list (string * val) :=
  [("pygments", Vs (Some (B "pygments"))); ("p", Vs (Some (B "pygments")));
   ("pyg", Vs (Some (B "pygments"))); ("skylighting", Vs (Some (B "skylighting")));
   ("s", Vs (Some (B "skylighting"))); ("sky", Vs (Some (B "skylighting")));
   ("shiki", Vs (Some (B "shiki"))); ("sh", Vs (Some (B "shiki")))]%string.
Definition no_tool_words : list (string * val) :=
  [("false", Vs None); ("no", Vs None); ("0", Vs None); ("none", Vs None)]%string.
Definition positive (v : str) : option val := if (0 <? atoi v)%Z then Some (Vn (atoi v)) else None.

(** For every option the keys that set it (any letter case). *)
Definition key_rows (f : field) : list (list string * effect) :=
  match f with
  | EnableIndices => [(["indices"], OnOff)]
  | EnableMmarkIndexSyntax | EnableTextindexSyntax | EnableLeanpubIndexSyntax =>
      [(["indices"], Implies on)]
  | EnableWikiLinks => [(["wikilinks"; "wiki-links"], OnOff)]
  | EnableFileIncludes => [(["includes"; "file-includes"], OnOff)]
  | RelaxedTables => [(["relaxed-tables"; "relaxed_tables"], OnOff)]
  | AllowAlphaLists => [(["alpha-lists"; "alpha_lists"], OnOff)]
  | AllowMixedListMarkers => [(["mixed-lists"; "mixed_lists"], OnOff)]
  | EnableSupSub => [(["sup-sub"; "sup_sub"], OnOff)]
  | EnableAutolink => [(["autolink"], OnOff)]
  | EnableStrikethrough => [(["strikethrough"; "strike-through"], OnOff)]
  | EnableMetadataTransforms => [(["transforms"; "metadata-transforms"], OnOff)]
  | Unsafe => [(["unsafe"], OnOff)]
  | EnablePlugins => [(["plugins"; "enable-plugins"; "enable_plugins"], OnOff)]
  | EnableTables => [(["tables"], OnOff)]
  | EnableFootnotes => [(["footnotes"], OnOff)]
  | EnableSmartTypography => [(["smart"; "smart-typography"], OnOff)]
  | EnableMath => [(["math"], OnOff)]
  | GenerateHeaderIds => [(["ids"; "header-ids"], OnOff)]
  | HeaderAnchors => [(["header-anchors"; "header_anchors"], OnOff)]
  | EmbedImages => [(["embed-images"; "embed_images"], OnOff)]
  | EnableImageCaptions =>
      [(["image-captions"; "image_captions"], OnOff);
       (["title-captions-only"; "title_captions_only"], Implies on)]
  | TitleCaptionsOnly => [(["title-captions-only"; "title_captions_only"], OnOff)]
  | LinkCitations => [(["link-citations"; "link_citations"], OnOff)]
  | ShowTooltips => [(["show-tooltips"; "show_tooltips"], OnOff)]
  | SuppressBibliography => [(["suppress-bibliography"; "suppress_bibliography"], OnOff)]
  | SuppressIndex => [(["suppress-index"; "suppress_index"], OnOff)]
  | GroupIndexByLetter => [(["group-index-by-letter"; "group_index_by_letter"], OnOff)]
  | ObfuscateEmails => [(["obfuscate-emails"; "obfuscate_emails"], OnOff)]
  | Pretty => [(["pretty"], OnOff)]
  | Standalone => [(["standalone"], OnOff); (["style"; "css"], Reads (fun _ => Some on))]
  | Hardbreaks => [(["hardbreaks"; "hard-breaks"], OnOff)]
  | EnableWidont => [(["widont"], OnOff)]
  | CodeIsPoetry => [(["code-is-poetry"; "code_is_poetry"], OnOff)]
  | HighlightLanguageOnly =>
      [(["highlight-language-only"; "highlight_language_only"], OnOff);
       (["code-is-poetry"; "code_is_poetry"], Implies on)]
  | EnableMarkdownInHtml => [(["markdown-in-html"; "markdown_in_html"], OnOff)]
  | RandomFootnoteIds => [(["random-footnote-ids"; "random_footnote_ids"], OnOff)]
  | EnableHashtags => [(["hashtags"], OnOff)]
  | StyleHashtags => [(["style-hashtags"; "style_hashtags"], OnOff)]
  | ProofreaderMode => [(["proofreader"], OnOff)]
  | EnableCriticMarkup => [(["proofreader"], Implies on)]
  | CriticMode => [(["proofreader"], Implies (Vn 2))]
  | HrPageBreak => [(["hr-page-break"; "hr_page_break"], OnOff)]
  | TitleFromH1 => [(["title-from-h1"; "title_from_h1"], OnOff)]
  | PageBreakBeforeFootnotes => [(["page-break-before-footnotes"; "page_break_before_footnotes"], OnOff)]
  | EnableCitations => [(["bibliography"; "csl"], Reads (fun _ => Some on))]
  | CslFile => [(["csl"], Reads text)]
  | DocumentTitle => [(["title"], Reads text)]
  | StylesheetPaths => [(["style"; "css"], Reads (fun v => Some (Vl (Some [v]))))]
  | StylesheetCount => [(["style"; "css"], Reads (fun _ => Some (Vn 1)))]
  | IdFormat => [(["id-format"; "id_format"], Reads (fun v => word id_words (lower v)))]
  | BaseDirectory => [(["base-dir"; "base_dir"], Reads text)]
  | WikilinkSpace => [(["wikilink-space"; "wikilink_space"], Reads (fun v => word space_words (lower v)))]
  | WikilinkExtension => [(["wikilink-extension"; "wikilink_extension"], Reads text)]
  | WikilinkSanitize => [(["wikilink-sanitize"; "wikilink_sanitize"], OnOff)]
  | TerminalWidth => [(["terminal.width"; "terminal_width"], Reads positive)]
  | CodeHighlighter =>
      [(["code-highlight"; "code_highlight"],
        Reads (fun v => word (tool_words ++ no_tool_words) (lower v)))]
  | CodeLineNumbers => [(["code-line-numbers"; "code_line_numbers"], OnOff)]
  | _ => []
  end%string.

(** What an item says about an option. *)
Definition meta_says (f : field) (k v : str) : option val :=
  match find (fun row => mem (lower k) (names (fst row))) (key_rows f) with
  | Some (_, e) => means e v
  | None => None
  end.
Definition silent (f : field) (m : list (list ascii * list ascii)) : Prop :=
  forall k v, In (k, v) m -> meta_says f k v = None.

(** The mode a metadata list asks for: its first [mode] item. *)
Definition mode_words : list (string * flavour) :=
  [("commonmark", CommonMark); ("gfm", Gfm); ("mmd", Mmd); ("multimarkdown", Mmd);
   ("kramdown", Kramdown); ("unified", Unified)]%string.
Definition mode_word (v : str) : option flavour :=
  option_map snd (find (fun p => mem v [B (fst p)]) mode_words).
Definition is_mode_key (k : str) : bool := mem (lower k) (names ["mode"]%string).
Definition asks_mode (m : list (list ascii * list ascii)) : option flavour :=
  match find (fun i => is_mode_key (fst i)) m with
  | Some (_, v) => mode_word (lower v)
  | None => None
  end.
(** The options the items are applied to. *)
Definition start (m : list (list ascii * list ascii)) (o : opts) (f : field) : val :=
  match asks_mode m with
  | Some n => in_mode n default f
  | None => o f
  end.

(** The three options for which the code departs from the tables. *)
Definition regular (f : field) : Prop :=
  f <> ThemeName /\ f <> WikilinkSanitize /\ f <> EnableLeanpubIndexSyntax.
(** Their keys. *)
Definition is_key (ks : list string) (k : list ascii) : Prop := In (lower k) (names ks).
Definition sanitize_keys : list string := ["wikilink-sanitize"; "wikilink_sanitize"]%string.
Definition theme_keys : list string := ["terminal.theme"; "terminal_theme"]%string.
(** A text that is there and not empty. *)
Definition filled (v : val) : bool := match v with Vs (Some (_ :: _)) => true | _ => false end.

(** ** Arguments *)

(** An argument list, divided into flags (with their values) and words. *)
Inductive tok := Flag (name : list ascii) (value : option (list ascii)) | Word (s : list ascii).

Definition value_flags : list (list ascii) := names
  ["-m"; "--mode"; "-t"; "--to"; "--theme"; "--width"; "-o"; "--output"; "--install-plugin";
   "--install-filter"; "--uninstall-filter"; "--filter"; "--lua-filter"; "--uninstall-plugin";
   "--css"; "--style"; "--script"; "--title"; "--id-format"; "--captions"; "--code-highlight";
   "--wikilink-space"; "--wikilink-extension"; "--base-dir"; "--bibliography"; "--csl";
   "--meta-file"]%string.
(** Everything else that starts with --meta is --meta, with its value behind an
    equals sign or in the next argument. *)
Definition takes_value (a : str) : bool :=
  mem a value_flags || (starts (B "--meta") a && negb (ceq (at_ a 6) "=")).
Definition dash (a : str) : bool := ceq (at_ a 0) "-".

Inductive reads : list (list ascii) -> list tok -> Prop :=
| r_end : reads [] []
| r_flag a l ts : dash a = true -> takes_value a = false -> reads l ts ->
    reads (a :: l) (Flag a None :: ts)
| r_value a v l ts : dash a = true -> takes_value a = true -> reads l ts ->
    reads (a :: v :: l) (Flag a (Some v) :: ts)
| r_word a l ts : dash a = false -> reads l ts -> reads (a :: l) (Word a :: ts).

Inductive source := Const (v : val) | From (r : list ascii -> option val).

(** For every option the flags that set it. *)
Definition flag_rows (f : field) : list (list string * source) :=
  match f with
  | OutputFormat =>
      [(["-t"; "--to"],
        From (word [("html", Vn 0); ("json", Vn 1); ("json-filtered", Vn 2); ("ast-json", Vn 2);
                    ("ast", Vn 2); ("markdown", Vn 3); ("md", Vn 3); ("mmd", Vn 4);
                    ("commonmark", Vn 5); ("cmark", Vn 5); ("kramdown", Vn 6); ("gfm", Vn 7);
                    ("terminal", Vn 8); ("cli", Vn 8); ("terminal256", Vn 9); ("man", Vn 10);
                    ("man-html", Vn 11)]))]
  | ThemeName => [(["--theme"], From text)]
  | EnablePlugins => [(["--plugins"], Const on); (["--no-plugins"], Const off)]
  | EnableTables => [(["--no-tables"], Const off)]
  | EnableFootnotes => [(["--no-footnotes"], Const off)]
  | EnableSmartTypography => [(["--no-smart"], Const off)]
  | EnableMath => [(["--no-math"], Const off)]
  | EnableFileIncludes => [(["--includes"], Const on); (["--no-includes"], Const off)]
  | Hardbreaks => [(["--hardbreaks"], Const on)]
  | Standalone => [(["-s"; "--standalone"; "--css"; "--style"], Const on)]
  | EmbedStylesheet => [(["--embed-css"], Const on)]
  | DocumentTitle => [(["--title"], From text)]
  | Pretty => [(["--pretty"], Const on)]
  | EnableCriticMarkup => [(["--accept"; "--reject"; "--proofreader"], Const on)]
  | CriticMode => [(["--accept"], Const (Vn 0)); (["--reject"], Const (Vn 1));
                   (["--proofreader"], Const (Vn 2))]
  | IdFormat => [(["--id-format"], From (word id_words))]
  | GenerateHeaderIds => [(["--no-ids"], Const off)]
  | HeaderAnchors => [(["--header-anchors"], Const on)]
  | RelaxedTables => [(["--relaxed-tables"], Const on); (["--no-relaxed-tables"], Const off)]
  | PerCellAlignment => [(["--per-cell-alignment"], Const on); (["--no-per-cell-alignment"], Const off)]
  | CaptionPosition => [(["--captions"], From (word [("above", Vn 0); ("below", Vn 1)]))]
  | CodeHighlighter => [(["--code-highlight"], From (word tool_words))]
  | CodeLineNumbers => [(["--code-line-numbers"], Const on)]
  | HighlightLanguageOnly => [(["--highlight-language-only"; "--code-is-poetry"], Const on)]
  | AllowAlphaLists => [(["--alpha-lists"], Const on); (["--no-alpha-lists"], Const off)]
  | AllowMixedListMarkers => [(["--mixed-lists"], Const on); (["--no-mixed-lists"], Const off)]
  | Unsafe => [(["--unsafe"], Const on); (["--no-unsafe"], Const off)]
  | EnableSupSub => [(["--sup-sub"], Const on); (["--no-sup-sub"], Const off)]
  | EnableDivs => [(["--divs"], Const on); (["--no-divs"], Const off)]
  | EnableSpans => [(["--spans"], Const on); (["--no-spans"], Const off)]
  | EnableAutolink => [(["--autolink"], Const on); (["--no-autolink"], Const off)]
  | EnableStrikethrough => [(["--strikethrough"], Const on); (["--no-strikethrough"], Const off)]
  | ObfuscateEmails => [(["--obfuscate-emails"], Const on)]
  | EnableAria => [(["--aria"], Const on)]
  | EnableWikiLinks => [(["--wikilinks"], Const on); (["--no-wikilinks"], Const off)]
  | EnableEmojiAutocorrect => [(["--emoji-autocorrect"], Const on); (["--no-emoji-autocorrect"], Const off)]
  | EnableWidont => [(["--widont"], Const on)]
  | CodeIsPoetry => [(["--code-is-poetry"], Const on)]
  | EnableMarkdownInHtml => [(["--markdown-in-html"], Const on); (["--no-markdown-in-html"], Const off)]
  | RandomFootnoteIds => [(["--random-footnote-ids"], Const on)]
  | EnableHashtags => [(["--hashtags"], Const on)]
  | StyleHashtags => [(["--style-hashtags"], Const on)]
  | ProofreaderMode => [(["--proofreader"], Const on)]
  | HrPageBreak => [(["--hr-page-break"], Const on)]
  | TitleFromH1 => [(["--title-from-h1"], Const on)]
  | PageBreakBeforeFootnotes => [(["--page-break-before-footnotes"], Const on)]
  | WikilinkSpace => [(["--wikilink-space"], From (word space_words))]
  | WikilinkExtension => [(["--wikilink-extension"], From text)]
  | WikilinkSanitize => [(["--wikilink-sanitize"], Const on); (["--no-wikilink-sanitize"], Const off)]
  | EnableMetadataTransforms => [(["--transforms"], Const on); (["--no-transforms"], Const off)]
  | EmbedImages => [(["--embed-images"], Const on)]
  | EnableImageCaptions =>
      [(["--image-captions"; "--title-captions-only"], Const on); (["--no-image-captions"], Const off)]
  | TitleCaptionsOnly => [(["--title-captions-only"], Const on); (["--no-title-captions-only"], Const off)]
  | BaseDirectory => [(["--base-dir"], From text)]
  | EnableCitations => [(["--bibliography"; "--csl"], Const on)]
  | CslFile => [(["--csl"], From text)]
  | SuppressBibliography => [(["--no-bibliography"], Const on)]
  | LinkCitations => [(["--link-citations"], Const on)]
  | ShowTooltips => [(["--show-tooltips"], Const on)]
  | EnableIndices => [(["--indices"], Const on); (["--no-indices"], Const off)]
  | EnableMmarkIndexSyntax | EnableTextindexSyntax | EnableLeanpubIndexSyntax =>
      [(["--indices"], Const on)]
  | SuppressIndex => [(["--no-index"], Const on)]
  | _ => []
  end%string.

Definition flag_says (f : field) (t : tok) : option val :=
  match t with
  | Flag n v =>
      match find (fun row => mem n (names (fst row))) (flag_rows f) with
      | Some (_, Const x) => Some x
      | Some (_, From r) => match v with Some s => r s | None => None end
      | None => None
      end
  | Word _ => None
  end.
(** A mode flag. *)
Definition tok_mode (t : tok) : option flavour :=
  match t with
  | Flag n (Some v) => if mem n (names ["-m"; "--mode"]%string) then mode_word v else None
  | _ => None
  end.
Definition quiet (f : field) (l : list tok) : Prop :=
  forall t, In t l -> flag_says f t = None /\ tok_mode t = None.
(** What the plugin switch says. *)
Definition plugin_switch (t : tok) : option bool :=
  match t with
  | Flag n None => if mem n (names ["--plugins"]%string) then Some true
                   else if mem n (names ["--no-plugins"]%string) then Some false else None
  | _ => None
  end.

(** Options that main itself fills in before the conversion. *)
Definition derived (f : field) : Prop :=
  In f [BaseDirectory; InputFilePath; BibliographyFiles; StylesheetPaths; StylesheetCount;
        EnablePlugins; AstFilterCommands; AstFilterCount; AstFilterStrict; ScriptTags].

(** The metadata that is applied: the files, the document (only where the mode reads
    metadata from it) and --meta, merged as C46 says. *)
Definition final_meta (global project explicit document : list (list ascii * list ascii))
  (o : opts) (x : extra) : list (list ascii * list ascii) :=
  cli_merge global project explicit (if reads_metadata o then document else []) (x_meta x).

(** Options that the documentation says metadata can set to true or false
    (man/apex.1.md 583-584), with the key it names. *)
Definition documented_switches : list (string * field) :=
  [("indices", EnableIndices); ("wikilinks", EnableWikiLinks);
   ("wikilink-sanitize", WikilinkSanitize); ("includes", EnableFileIncludes);
   ("relaxed-tables", RelaxedTables); ("per-cell-alignment", PerCellAlignment);
   ("alpha-lists", AllowAlphaLists); ("mixed-lists", AllowMixedListMarkers);
   ("sup-sub", EnableSupSub); ("strikethrough", EnableStrikethrough);
   ("autolink", EnableAutolink); ("transforms", EnableMetadataTransforms);
   ("unsafe", Unsafe); ("tables", EnableTables); ("footnotes", EnableFootnotes);
   ("smart", EnableSmartTypography); ("math", EnableMath); ("ids", GenerateHeaderIds);
   ("header-anchors", HeaderAnchors); ("embed-images", EmbedImages);
   ("image-captions", EnableImageCaptions); ("link-citations", LinkCitations);
   ("show-tooltips", ShowTooltips); ("suppress-bibliography", SuppressBibliography);
   ("suppress-index", SuppressIndex); ("group-index-by-letter", GroupIndexByLetter);
   ("obfuscate-emails", ObfuscateEmails); ("pretty", Pretty); ("standalone", Standalone);
   ("hardbreaks", Hardbreaks); ("plugins", EnablePlugins);
   ("emoji-autocorrect", EnableEmojiAutocorrect); ("code-line-numbers", CodeLineNumbers);
   ("highlight-language-only", HighlightLanguageOnly);
   ("markdown-in-html", EnableMarkdownInHtml)]%string.
