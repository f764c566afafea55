(** C25, C67-C69: modes, options in metadata, flags, and which of them wins. *)
From Verif Require Import Base BaseL M_Meta M_Opt S_Opt L_Opt L_Opt2.

(** ** C25 *)
(** Every option of every mode is the one of the table of features. *)
Theorem C25_modes m f : for_mode (number m) f = in_mode m default f.
Proof. exact (for_mode_in m f). Qed.
Print Assumptions C25_modes.
(** A number that is no mode gives the default options under that number. *)
Theorem C25_unknown m f : (m < 0 \/ 4 < m)%Z ->
  for_mode m f = match f with Mode => Vn m | _ => default f end.
Proof. exact (for_mode_other m f). Qed.
Print Assumptions C25_unknown.
(** The defaults are unified mode without citations and indices. *)
Theorem C25_default f :
  default f = for_mode (number Unified) f <->
  ~ In f [EnableCitations; EnableIndices; EnableMmarkIndexSyntax; EnableTextindexSyntax;
          EnableLeanpubIndexSyntax].
Proof.
  split.
  - intros E I. cbn [In] in I. decompose [or] I; subst; try discriminate; contradiction.
  - intro N. destruct f; try reflexivity; exfalso; apply N; cbn; auto 10.
Qed.
Print Assumptions C25_default.
(** Raw HTML is passed on exactly when the option is on; the strict modes never
    switch it on. *)
Theorem C25_unsafe o : In BUnsafe (cmark_options o) <-> is_on (o Unsafe) = true.
Proof. exact (strict_bits o). Qed.
Print Assumptions C25_unsafe.
Theorem C25_strict m : m = CommonMark \/ m = Gfm ->
  for_mode (number m) Unsafe = off /\ ~ In BUnsafe (cmark_options (for_mode (number m))).
Proof. intros [-> | ->]; (split; [reflexivity|]; intro H; vm_compute in H; decompose [or] H; try discriminate; contradiction). Qed.
Print Assumptions C25_strict.
(** The parser extensions of each mode. *)
Theorem C25_extensions m :
  extensions (for_mode (number m)) =
  match m with
  | CommonMark => []
  | Gfm => [XTable; XTasklist; XStrikethrough; XAutolink; XTagfilter; XAdvTables false]
  | Mmd | Kramdown => [XTable; XMath; XDeflist; XAdvFootnotes; XAdvTables false]
  | Unified => [XTable; XTasklist; XStrikethrough; XAutolink; XMath; XDeflist; XAdvFootnotes;
                XAdvTables true]
  end.
Proof. destruct m; reflexivity. Qed.
Print Assumptions C25_extensions.
(** Whatever the options, GFM filters dangerous tags. *)
Theorem C25_tagfilter o : o Mode = Vn 1 <-> In XTagfilter (extensions o).
Proof.
  unfold extensions. split.
  - intro M. unfold mode_is. rewrite M. cbn [Z.eqb Pos.eqb]. rewrite !in_app_iff. cbn. auto 10.
  - intro I. unfold extensions, when in I. rewrite !in_app_iff in I.
    destruct (mode_is 1 o) eqn:E.
    + unfold mode_is in E. destruct (o Mode) as [|z| |]; try discriminate.
      apply Z.eqb_eq in E. subst. reflexivity.
    + exfalso. cbn [is_on In] in I.
      repeat match type of I with
             | _ \/ _ => destruct I as [I|I]
             | In _ (if ?b then _ else _) => destruct b; cbn in I
             | False => contradiction
             | _ => discriminate I
             end.
Qed.
Print Assumptions C25_tagfilter.
Example C25_case : for_mode 2 EnableFootnotes = on /\ for_mode 1 EnableFootnotes = off /\
  for_mode 2 IdFormat = Vn 1 /\ for_mode 7 Mode = Vn 7.
Proof. repeat split; reflexivity. Qed.
(** The autolink option is on in MultiMarkdown and Kramdown mode
    but the extension is only attached in the other two. *)
Theorem C25_autolink_refuted m : m = Mmd \/ m = Kramdown ->
  for_mode (number m) EnableAutolink = on /\ ~ In XAutolink (extensions (for_mode (number m))).
Proof. intros [-> | ->]; (split; [reflexivity|]; intro H; vm_compute in H; decompose [or] H; try discriminate; contradiction). Qed.
Print Assumptions C25_autolink_refuted.

(** ** C67 *)
(** The last item that says something about an option decides (all options but
    three). *)
Theorem C67_last_partial f m pre k v post x o : regular f ->
  m = pre ++ (k, v) :: post -> meta_says f k v = Some x -> silent f post ->
  apply_metadata m o f = x.
Proof. exact (apply_last f m pre k v post x o). Qed.
Print Assumptions C67_last_partial.
(** If none does, the option is that of the mode asked for, and otherwise what it
    was. *)
Theorem C67_silent_partial f m o : regular f -> silent f m ->
  apply_metadata m o f = start m o f.
Proof. exact (apply_silent f m o). Qed.
Print Assumptions C67_silent_partial.
Example C67_case :
  let m := [(B "Pretty", B "YES"); (B "mode", B "GFM"); (B "title", B "T"); (B "pretty", B "maybe")] in
  meta_says Pretty (B "Pretty") (B "YES") = Some on /\
  apply_metadata m default Pretty = on /\ apply_metadata m default EnableFootnotes = off /\
  apply_metadata m default DocumentTitle = Vs (Some (B "T")).
Proof. repeat split; reflexivity. Qed.
(** Nearly every documented switch obeys all the documented words. *)
Theorem C67_documented_partial n f v b o m pre k post :
  In (n, f) documented_switches ->
  ~ In n ["wikilink-sanitize"; "per-cell-alignment"; "emoji-autocorrect"]%string ->
  lower k = B n -> truth v = Some b -> m = pre ++ (k, v) :: post -> silent f post ->
  apply_metadata m o f = Vb b.
Proof. exact (documented_one n f v b o m pre k post). Qed.
Print Assumptions C67_documented_partial.
Example C67_documented_case : In ("unsafe"%string, Unsafe) documented_switches /\
  truth (B "No") = Some false /\ apply_metadata [(B "Unsafe", B "No")] default Unsafe = off.
Proof. split; [vm_compute; auto 20|]. split; reflexivity. Qed.
(** The three that do not: two are ignored whatever they say, ... *)
Theorem C67_ignored_refuted n f v o : In (n, f)
    [("per-cell-alignment"%string, PerCellAlignment); ("emoji-autocorrect"%string, EnableEmojiAutocorrect)] ->
  In (n, f) documented_switches /\ apply_metadata [(B n, v)] o f = o f.
Proof.
  intros [[= <- <-]|[[= <- <-]|[]]]; (split; [vm_compute; auto 40|reflexivity]).
Qed.
Print Assumptions C67_ignored_refuted.
(** ... and the third is switched off by everything but "true" and "1". *)
Theorem C67_sanitize m pre k v post o : m = pre ++ (k, v) :: post -> is_key sanitize_keys k ->
  (forall k v, In (k, v) post -> ~ is_key sanitize_keys k) ->
  apply_metadata m o WikilinkSanitize = Vb (casecmp v (B "true") || seq_ v (B "1")).
Proof. exact (apply_sanitize m pre k v post o). Qed.
Print Assumptions C67_sanitize.
Theorem C67_sanitize_refuted o :
  truth (B "yes") = Some true /\ apply_metadata [(B "wikilink-sanitize", B "yes")] o WikilinkSanitize = off.
Proof. split; reflexivity. Qed.
Print Assumptions C67_sanitize_refuted.
(** The colour theme: the first item counts, and only if there is no theme yet. *)
Theorem C67_theme_kept m o : filled (start m o ThemeName) = true ->
  apply_metadata m o ThemeName = start m o ThemeName.
Proof. exact (apply_theme_kept m o). Qed.
Print Assumptions C67_theme_kept.
Theorem C67_theme_first m pre k c v post o : filled (start m o ThemeName) = false ->
  m = pre ++ (k, c :: v) :: post -> is_key theme_keys k ->
  (forall k v, In (k, v) pre -> ~ is_key theme_keys k) ->
  apply_metadata m o ThemeName = Vs (Some (c :: v)).
Proof. exact (apply_theme_first m pre k c v post o). Qed.
Print Assumptions C67_theme_first.
Example C67_theme_case :
  apply_metadata [(B "terminal.theme", B "a"); (B "Terminal_Theme", B "b")] default ThemeName = Vs (Some (B "a")).
Proof. reflexivity. Qed.
(** Switching indices on in the metadata leaves one syntax out that the flag of the
    same name switches on. *)
Theorem C67_indices_refuted known :
  apply_metadata [(B "indices", B "true")] default EnableLeanpubIndexSyntax = off /\
  exists o x, main_args known [B "--indices"] = Ready o x /\ o EnableLeanpubIndexSyntax = on.
Proof. split; [reflexivity|]. eexists _, _. split; reflexivity. Qed.
Print Assumptions C67_indices_refuted.
(** Keys are not compared without spaces and dashes. *)
Theorem C67_spelling_refuted o f v :
  apply_metadata [(B "Relaxed Tables", v)] o f = o f /\ apply_metadata [(B "relaxedtables", v)] o f = o f.
Proof. split; reflexivity. Qed.
Print Assumptions C67_spelling_refuted.

(** ** C68 *)
(** There is one way to read an argument list. *)
Theorem C68_reads_once args ts ts' : reads args ts -> reads args ts' -> ts = ts'.
Proof. intros R R'. exact (reads_unique args ts R ts' R'). Qed.
Print Assumptions C68_reads_once.
Theorem C68_reads known args o x : main_args known args = Ready o x -> exists ts, reads args ts.
Proof. exact (main_reads_ex known args o x). Qed.
Print Assumptions C68_reads.
(** The last flag about an option decides, provided no mode flag comes later. *)
Theorem C68_last_partial known args pre t post o x f v : main_args known args = Ready o x ->
  reads args (pre ++ t :: post) -> flag_says f t = Some v -> quiet f post -> o f = v.
Proof. exact (flag_last known args pre t post o x f v). Qed.
Print Assumptions C68_last_partial.
(** With no flag after the last mode flag the option is that of the mode. *)
Theorem C68_mode known args pre t post o x f m : main_args known args = Ready o x ->
  reads args (pre ++ t :: post) -> tok_mode t = Some m -> quiet f post -> o f = in_mode m default f.
Proof. exact (flag_mode known args pre t post o x f m). Qed.
Print Assumptions C68_mode.
(** With no flag at all it is the default. *)
Theorem C68_none known args ts o x f : main_args known args = Ready o x ->
  reads args ts -> quiet f ts -> o f = default f.
Proof. exact (flag_none known args ts o x f). Qed.
Print Assumptions C68_none.
Example C68_case :
  exists o x, main_args (fun _ => None)
    [B "-m"; B "gfm"; B "--no-tables"; B "-t"; B "json"; B "f.md"] = Ready o x /\
  reads [B "-m"; B "gfm"; B "--no-tables"; B "-t"; B "json"; B "f.md"]
    [Flag (B "-m") (Some (B "gfm")); Flag (B "--no-tables") None; Flag (B "-t") (Some (B "json"));
     Word (B "f.md")] /\
  o EnableTables = off /\ o OutputFormat = Vn 1 /\ o EnableTaskLists = on /\ o EnableMath = off.
Proof.
  eexists _, _. split; [reflexivity|]. split; [|repeat split; reflexivity].
  repeat (constructor; [reflexivity|try reflexivity..|]); constructor.
Qed.
(** A mode flag undoes the flags before it: their order matters. *)
Theorem C68_order_refuted known :
  exists o x o' x', main_args known [B "--to"; B "json"; B "-m"; B "gfm"] = Ready o x /\
    main_args known [B "-m"; B "gfm"; B "--to"; B "json"] = Ready o' x' /\
    o OutputFormat = Vn 0 /\ o' OutputFormat = Vn 1.
Proof. eexists _, _, _, _. repeat split; reflexivity. Qed.
Print Assumptions C68_order_refuted.
(** Among them --no-unsafe, which is then without effect. *)
Theorem C68_unsafe_refuted known :
  exists o x, main_args known [B "--no-unsafe"; B "-m"; B "mmd"] = Ready o x /\
    In BUnsafe (cmark_options o).
Proof. eexists _, _. split; [reflexivity|]. vm_compute. auto. Qed.
Print Assumptions C68_unsafe_refuted.

(** ** C69 *)
(** The plugin flags win over all metadata, wherever a mode flag stands. *)
Theorem C69_plugins known args pre t post o x b dirname g p e d fl :
  main_args known args = Ready o x -> reads args (pre ++ t :: post) ->
  plugin_switch t = Some b -> (forall u, In u post -> plugin_switch u = None) ->
  configure dirname g p e d fl o x EnablePlugins = Vb b.
Proof.
  intros P R S Q. apply configure_plugins. exact (plugins_last known args pre t post o x b P R S Q).
Qed.
Print Assumptions C69_plugins.
(** Any other flag decides if the metadata says nothing about its option and asks
    for no mode. *)
Theorem C69_flags_partial known args pre t post o x f v dirname g p e d fl :
  main_args known args = Ready o x -> reads args (pre ++ t :: post) ->
  flag_says f t = Some v -> quiet f post -> ~ derived f -> regular f ->
  silent f (final_meta g p e d o x) -> asks_mode (final_meta g p e d o x) = None ->
  configure dirname g p e d fl o x f = v.
Proof.
  intros P R S Q D G M A. rewrite configure_kept by auto. exact (flag_last known args pre t post o x f v P R S Q).
Qed.
Print Assumptions C69_flags_partial.
(** Otherwise the metadata wins over any flag: an item about the option ... *)
Theorem C69_metadata_refuted dirname g p e d fl o x f pre k v post w : ~ derived f -> regular f ->
  final_meta g p e d o x = pre ++ (k, v) :: post -> meta_says f k v = Some w -> silent f post ->
  configure dirname g p e d fl o x f = w.
Proof. exact (configure_last dirname g p e d fl o x f pre k v post w). Qed.
Print Assumptions C69_metadata_refuted.
(** ... and a mode, even for options that no metadata key names. *)
Theorem C69_mode_refuted dirname g p e d fl o x f m : ~ derived f -> regular f ->
  silent f (final_meta g p e d o x) -> asks_mode (final_meta g p e d o x) = Some m ->
  configure dirname g p e d fl o x f = in_mode m default f.
Proof. exact (configure_mode dirname g p e d fl o x f m). Qed.
Print Assumptions C69_mode_refuted.

Definition here (_ : list ascii) : list ascii := B ".".
Example C69_case : exists o x, main_args (fun _ => None) [B "--no-plugins"; B "--no-tables"; B "f.md"] = Ready o x /\
  configure here [] [] [] [(B "plugins", B "true"); (B "title", B "T")] [] o x EnablePlugins = off /\
  configure here [] [] [] [(B "plugins", B "true"); (B "title", B "T")] [] o x EnableTables = off.
Proof. eexists _, _. repeat split; reflexivity. Qed.
(** Three flags that lose: safety, the output format, and the style sheets. *)
Theorem C69_unsafe_refuted known : exists o x, main_args known [B "--no-unsafe"; B "f.md"] = Ready o x /\
  configure here [] [] [] [(B "unsafe", B "true")] [] o x Unsafe = on.
Proof. eexists _, _. split; reflexivity. Qed.
Print Assumptions C69_unsafe_refuted.
Theorem C69_format_refuted known : exists o x, main_args known [B "--to"; B "json"; B "f.md"] = Ready o x /\
  configure here [] [] [] [(B "mode", B "gfm")] [] o x OutputFormat = Vn 0.
Proof. eexists _, _. split; reflexivity. Qed.
Print Assumptions C69_format_refuted.
Theorem C69_css_refuted known : exists o x, main_args known [B "--css"; B "a.css"; B "f.md"] = Ready o x /\
  configure here [] [] [] [(B "css", B "b.css")] [] o x StylesheetPaths = Vl (Some [B "b.css"]).
Proof. eexists _, _. split; reflexivity. Qed.
Print Assumptions C69_css_refuted.
(** A bibliography given by flag is kept but not used when the document asks for a
    mode. *)
Theorem C69_bibliography_refuted known : exists o x,
  main_args known [B "--bibliography"; B "r.bib"; B "f.md"] = Ready o x /\
  configure here [] [] [] [(B "mode", B "kramdown")] [] o x BibliographyFiles = Vl (Some [B "r.bib"]) /\
  configure here [] [] [] [(B "mode", B "kramdown")] [] o x EnableCitations = off.
Proof. eexists _, _. repeat split; reflexivity. Qed.
Print Assumptions C69_bibliography_refuted.
