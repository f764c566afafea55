(** Specification of a conversion: which steps run, in which order, on which text;
    what is returned; which blocks stay behind; what goes wrong. *)
From Verif Require Import Base M_Opt M_Run.

(** ** Options *)

(** The switches that must be on for a preprocessing step, and the modes it is
    limited to (0 CommonMark, 1 GFM, 2 MultiMarkdown, 3 Kramdown, 4 unified). *)
Definition any_mode : option (list Z) := None.
Definition only (l : list Z) : option (list Z) := Some l.
Definition needs (s : tstep) : list field * option (list Z) :=
  match s with
  | TMetaVars => ([EnableMetadataVariables], any_mode)
  | TCitations => ([EnableCitations], any_mode)
  | TIndices => ([EnableIndices], any_mode)
  | TAutolinks => ([EnableAutolink], any_mode)
  | TImageAttrs => ([], only [2; 3; 4]%Z)
  | TIal => ([], only [3; 4]%Z)
  | TSpans => ([EnableSpans], only [3; 4]%Z)
  | TIncludes => ([EnableFileIncludes], any_mode)
  | TMarkers => ([EnableMarkedExtensions], any_mode)
  | TInlineTables => ([], any_mode)
  | TAlpha => ([AllowAlphaLists], any_mode)
  | TEmojiFix => ([EnableEmojiAutocorrect], only [1; 4]%Z)
  | TFootnotes => ([EnableFootnotes], any_mode)
  | THighlights => ([], any_mode)
  | TInserts => ([], any_mode)
  | TSupSub => ([EnableSupSub], any_mode)
  | TRelaxed => ([EnableTables; RelaxedTables], any_mode)
  | THeaderless => ([EnableTables], any_mode)
  | TColspans => ([EnableTables], any_mode)
  | TCaptions => ([EnableTables], any_mode)
  | TDeflist => ([EnableDefinitionLists], any_mode)
  | TDivs => ([EnableDivs], only [4]%Z)
  | TMdInHtml => ([EnableMarkdownInHtml], any_mode)
  | THashtags => ([EnableHashtags], any_mode)
  | TProof => ([ProofreaderMode], any_mode)
  | TCritic => ([EnableCriticMarkup], any_mode)
  | TLiquid => ([], any_mode)
  end.
Definition meets (o : opts) (n : list field * option (list Z)) : Prop :=
  (forall f, In f (fst n) -> o f = Vb true) /\
  match snd n with None => True | Some ms => exists m, o Mode = Vn m /\ In m ms end.
(** Three steps depend on something else as well. *)
Definition runs (o : opts) (meta cite : bool) (s : tstep) : Prop :=
  meets o (needs s) /\
  match s with
  | TMetaVars => meta = true
  | TCitations => cite = true
  | THighlights => o ProofreaderMode <> Vb true
  | _ => True
  end.
(** The same for the steps on the HTML. *)
Definition hneeds (s : hstep) : list field * option (list Z) :=
  match s with
  | HDivs => ([EnableDivs], only [4]%Z)
  | HTables | HSepRows => ([EnableTables], any_mode)
  | HHr => ([HrPageBreak], any_mode)
  | HWidont => ([EnableWidont], any_mode)
  | HPoetry => ([CodeIsPoetry], any_mode)
  | HFootHash => ([RandomFootnoteIds], any_mode)
  | HFootBreak => ([PageBreakBeforeFootnotes], any_mode)
  | HIds => ([GenerateHeaderIds], any_mode)
  | HObfuscate => ([ObfuscateEmails], any_mode)
  | HEmbed => ([EmbedImages], any_mode)
  | HMetaVars => ([EnableMetadataVariables], any_mode)
  | HToc | HEmptyP => ([EnableMarkedExtensions], any_mode)
  | HAria => ([EnableAria], any_mode)
  | HEmoji => ([], only [1; 4]%Z)
  | HCitations | HBib => ([EnableCitations], any_mode)
  | HIndexMarks | HIndex => ([EnableIndices], any_mode)
  | HRelaxed => ([EnableTables; RelaxedTables], any_mode)
  | HAlpha => ([AllowAlphaLists], any_mode)
  | HPretty => ([Pretty], any_mode)
  | HLiquid | HLevels | HQuotes | HAuto | HImgCaptions | HFigP | HBlockP | HSyntax | HAbbr | HTagSpace
  | HCollapse | HPlugins | HScripts | HWrap | HCss | HBlank => ([], any_mode)
  end.

(** ** Text *)

(** A line end is added unless there is one; an empty text becomes one line end. *)
Inductive closes : str -> str -> Prop :=
| c_empty : closes [] [NL]
| c_has a c : c = NL \/ c = CR -> closes (a ++ [c]) (a ++ [c])
| c_adds a c : c <> NL -> c <> CR -> closes (a ++ [c]) (a ++ [c; NL]).
Definition open_line (t : str) : Prop := t = [] \/ exists a c, t = a ++ [c] /\ c <> NL /\ c <> CR.
(** What a step is given: the table steps get a text whose last line is closed. *)
Inductive given (s : tstep) : str -> str -> Prop :=
| g_empty : given s [] []
| g_plain t : ~ In s [TRelaxed; THeaderless; TColspans; TCaptions] -> given s t t
| g_table t t' : In s [TRelaxed; THeaderless; TColspans; TCaptions] -> t <> [] -> closes t t' -> given s t t'.

Section Spec.
Context {R : Type} (l : lib R).

(** One step: from what is remembered and the text, to the same; the list tells
    whether a new text was made. *)
Inductive stepped (o : opts) (meta cite : bool) (s : tstep) : R -> str -> R -> str -> list tstep -> Prop :=
| s_off r t : ~ runs o meta cite s -> stepped o meta cite s r t r t []
| s_null r t t' r' : runs o meta cite s -> given s t t' -> l_text l s o r t' = (None, r') ->
    stepped o meta cite s r t r' t []
| s_made r t t' r' c : runs o meta cite s -> given s t t' -> l_text l s o r t' = (Some c, r') ->
    stepped o meta cite s r t r' c [s].
Inductive stepped_all (o : opts) (meta cite : bool) : list tstep -> R -> str -> R -> str -> list tstep -> Prop :=
| sa_nil r t : stepped_all o meta cite [] r t r t []
| sa_cons s ss r t r1 t1 r2 t2 m1 m2 :
    stepped o meta cite s r t r1 t1 m1 -> stepped_all o meta cite ss r1 t1 r2 t2 m2 ->
    stepped_all o meta cite (s :: ss) r t r2 t2 (m1 ++ m2).

(** The order of the steps behind the metadata variables. *)
Definition order : list tstep :=
  [TCitations; TIndices; TAutolinks; TImageAttrs; TIal; TSpans; TIncludes; TMarkers;
   TInlineTables; TAlpha; TEmojiFix; TFootnotes; THighlights; TInserts; TSupSub; TRelaxed;
   THeaderless; TColspans; TCaptions; TDeflist; TDivs; TMdInHtml; THashtags; TProof; TCritic;
   TLiquid].

(** Before the steps: plugins, then metadata, attribute lists and abbreviations are
    taken out. *)
Definition in_mode (o : opts) (ms : list Z) : Prop := exists m, o Mode = Vn m /\ In m ms.
Inductive taken (o : opts) : str -> bool -> bool -> R -> str -> Prop :=
| t_none t : ~ in_mode o [2; 3; 4]%Z -> taken o t false false (l_start l) t
| t_mmd t b r t1 b2 r2 t2 : in_mode o [2]%Z -> l_meta l t = (b, r, t1) -> l_abbr l r t1 = (b2, r2, t2) ->
    taken o t b false r2 t2
| t_ald t b r t1 b1 r1 t1' b2 r2 t2 : in_mode o [3; 4]%Z -> l_meta l t = (b, r, t1) ->
    l_alds l r t1 = (b1, r1, t1') -> l_abbr l r1 t1' = (b2, r2, t2) ->
    taken o t b b1 r2 t2.
Definition plugged (o : opts) (t : str) : str :=
  if (is_on (o EnablePlugins) && l_manager l o)%bool
  then match l_pre l o t with Some t' => t' | None => t end else t.
(** A bibliography or citation style in the metadata switches citations on. *)
Definition with_cites (o : opts) (meta : bool) (r : R) : opts :=
  if (meta && l_cites l r)%bool then set (EnableCitations, on) o else o.
Definition cites (o : opts) (bib meta : bool) (r : R) : bool :=
  bib || some_list (o BibliographyFiles) || some_str (o CslFile) || (meta && l_cites l r).

(** Everything in front of the parser: the options from then on, whether there are
    metadata and attribute lists, should_process_citations, what is remembered, the
    text left by the last step and the steps that made a new text. *)
Inductive preprocessed (o : opts) (text : str) : opts -> bool -> bool -> bool -> R -> str -> list tstep -> Prop :=
| pre_intro meta alds r0 t0 r1 t1 m1 bib r2 r3 t3 m3 :
    taken o (plugged o text) meta alds r0 t0 ->
    stepped (with_cites o meta r0) meta false TMetaVars r0 t0 r1 t1 m1 ->
    l_bib l (with_cites o meta r0) r1 = (bib, r2) ->
    stepped_all (with_cites o meta r0) meta (cites (with_cites o meta r0) bib meta r2) order r2 t1 r3 t3 m3 ->
    preprocessed o text (with_cites o meta r0) meta alds (cites (with_cites o meta r0) bib meta r2) r3 t3 (m1 ++ m3).

(** ** HTML *)
(** A step runs when its switches are on, the mode fits and the rest holds. *)
Definition fits (o : opts) (n : list field * option (list Z)) : bool :=
  forallb (fun f => is_on (o f)) (fst n) &&
  match snd n, o Mode with None, _ => true | Some ms, Vn m => existsb (Z.eqb m) ms | _, _ => false end.
Definition hactive (o : opts) (meta cite : bool) (r : R) (s : hstep) : bool :=
  fits o (hneeds s) &&
  match s with
  | HLiquid => l_tags l r
  | HLevels | HMetaVars => meta
  | HQuotes => l_has l VQuotes r
  | HSyntax => match o CodeHighlighter with Vs (Some _) => true | _ => false end
  | HCitations => cite
  | HBib => cite && negb (is_on (o SuppressBibliography))
  | HIndexMarks | HIndex => l_index l r
  | HCollapse => negb (is_on (o Pretty))
  | _ => true
  end.
(** One step on the HTML; none at all without HTML. *)
Definition hstepped (o : opts) (meta cite : bool) (r : R) (s : hstep) (h : option str) : option str :=
  match h with
  | None => None
  | Some t => if hactive o meta cite r s
              then match l_html l s o r t with Some t' => Some t' | None => Some t end else Some t
  end.
Definition hstepped_all (o : opts) (meta cite : bool) (r : R) (ss : list hstep) (h : option str) : option str :=
  fold_left (fun h s => hstepped o meta cite r s h) ss h.
Definition body_order : list hstep :=
  [HLiquid; HDivs; HTables; HHr; HWidont; HPoetry; HFootHash; HFootBreak;
   HLevels; HQuotes; HAuto; HImgCaptions; HFigP; HBlockP; HIds; HObfuscate; HEmbed; HMetaVars;
   HToc; HAria; HSyntax; HAbbr; HEmoji; HCitations; HBib; HIndexMarks; HIndex;
   HTagSpace; HCollapse; HRelaxed; HAlpha; HEmptyP].
Definition last_order : list hstep := [HBlank; HSepRows; HPretty].
Definition has_scripts (o : opts) : bool :=
  match o ScriptTags with Vl (Some x) => negb (forallb (fun s => match s with [] => true | _ => false end) x) | _ => false end.
Definition embedded (o : opts) (r : R) (h : option str) : option str :=
  if (is_on (o EmbedStylesheet) && sheets_given o)%bool
  then match h with
       | None => None
       | Some t => Some (fold_left (fun t path => match l_sheet l o r path t with Some t' => t' | None => t end)
                     (rev (firstn (sheet_count o) (match sheet_list o with Some x => x | None => [] end))) t)
       end
  else h.
(** [plug]: plugins were found when the conversion started. *)
Definition page (o : opts) (plug meta cite : bool) (r : R) (h : option str) : option str :=
  let h1 := hstepped_all o meta cite r body_order h in
  let h2 := if plug then hstepped o meta cite r HPlugins h1 else h1 in
  let h3 := if is_on (o Standalone) then embedded o r (hstepped o meta cite r HWrap h2)
            else if has_scripts o then hstepped o meta cite r HScripts h2 else h2 in
  hstepped_all o meta cite r last_order h3.

(** ** The whole conversion *)

(** What is remembered when the document tree is ready: behind the parser, the
    filters and the passes over the tree.  [Failed]: no document; [Plain]: JSON
    without filters; [Tree]. *)
Inductive stage := Failed | Plain (r : R) | Tree (r : R).
Definition filters_on (o : opts) : bool :=
  some_list (o AstFilterCommands) && match o AstFilterCount with Vn n => Z.ltb 0 n | _ => false end.
Definition parsed (o : opts) (r : R) (fed : str) : stage :=
  let (ok, r1) := l_parse l o r fed in
  if negb ok then Failed
  else if format_is 1 o then Plain r1
  else if filters_on o then
    match l_filters l o r1 with
    | None => if is_on (o AstFilterStrict) then Failed else Tree r1
    | Some (_, r2) => Tree r2
    end
  else Tree r1.
Definition tree (o : opts) (alds : bool) (r : R) (fed : str) : R :=
  l_tree l o r (is_on (o EnableWikiLinks) && found (B "[[") fed)
         ((alds || kramdown_like o) && (found (B "{:") fed || found (B "{#") fed || found (B "{.") fed)).
Definition returned (o : opts) (plug meta alds cite : bool) (r : R) (fed : str) : option str :=
  match parsed o r fed with
  | Failed => None
  | Plain r1 => l_other l o r1
  | Tree r1 =>
      let r2 := tree o alds r1 fed in
      if format_other o then l_other l o r2
      else page o plug meta cite r2 (l_render l o r2)
  end.

(** ** What goes wrong *)

(** The text is searched again behind the parser although its copy is gone. *)
Definition searches_freed (o : opts) (alds : bool) (r : R) (t fed : str) : Prop :=
  open_line t /\ (exists r1, parsed o r fed = Tree r1) /\
  (is_on (o EnableWikiLinks) = true \/ alds = true \/ kramdown_like o = true).
(** The page is wrapped. *)
Definition wraps (o : opts) (alds : bool) (r : R) (fed : str) (r2 : R) : Prop :=
  (exists r1, parsed o r fed = Tree r1 /\ r2 = tree o alds r1 fed) /\
  format_other o = false /\ l_render l o r2 <> None /\ is_on (o Standalone) = true.
(** The array made for the stylesheet of the metadata is read again for embedding. *)
Definition embeds_freed (o : opts) (meta alds : bool) (r : R) (fed : str) : Prop :=
  exists r2, wraps o alds r fed r2 /\ sheets_given o = false /\ meta = true /\ l_has l VCss r2 = true /\
    is_on (o EmbedStylesheet) = true.
(** An empty array of stylesheets, given by the caller, is released. *)
Definition frees_foreign (o : opts) (meta alds : bool) (r : R) (fed : str) : Prop :=
  exists r2, wraps o alds r fed r2 /\ sheet_list o = Some [] /\ ~ (meta = true /\ l_has l VCss r2 = true).

(** The buffers the cleanup forgets. *)
Definition forgotten : list tstep := [TCitations; TIndices; TImageAttrs; TInlineTables; TSupSub; TColspans].

(** ** What can be seen of a final state *)
(** What the returned pointer points to. *)
Definition content (p : option nat) (s : st R) : option str :=
  match p with Some q => lookup q (live s) | None => None end.
(** Blocks of preprocessing that are still there. *)
Definition kept (s : st R) (x : tstep) : Prop := exists q c, env s (VStep x) = Some q /\ lookup q (live s) = Some c.

(** The conversion gets as far as HTML. *)
Definition html_out (o : opts) (g : stage) : Prop := (exists r1 : R, g = Tree r1) /\ format_other o = false.
(** Plugins were found. *)
Definition manager (o : opts) : bool := is_on (o EnablePlugins) && l_manager l o.
End Spec.

(** ** Replacing one step of a library *)
Definition same_t (a b : tstep) : bool := N.eqb (tnum a) (tnum b).
Definition hstep_eq (a b : hstep) : {a = b} + {a <> b}.
Proof. decide equality. Defined.
Definition other_text {R} (s : tstep) (f : opts -> R -> str -> option str * R) (l : lib R) : lib R :=
  Lib R (l_start l) (l_manager l) (l_pre l) (l_meta l) (l_alds l) (l_abbr l) (l_cites l) (l_bib l)
    (fun x => if same_t x s then f else l_text l x) (l_img l) (l_tags l) (l_index l) (l_parse l)
    (l_filters l) (l_tree l) (l_other l) (l_render l) (l_html l) (l_has l) (l_title l) (l_sheet l).
Definition other_html {R} (s : hstep) (f : opts -> R -> str -> option str) (l : lib R) : lib R :=
  Lib R (l_start l) (l_manager l) (l_pre l) (l_meta l) (l_alds l) (l_abbr l) (l_cites l) (l_bib l)
    (l_text l) (l_img l) (l_tags l) (l_index l) (l_parse l)
    (l_filters l) (l_tree l) (l_other l) (l_render l) (fun x => if hstep_eq x s then f else l_html l x)
    (l_has l) (l_title l) (l_sheet l).
