(** Model of apex.c 3958-5993, apex_markdown_to_html: the order of the steps and the
    buffers handed from one to the next.

    The steps themselves are a library [lib]: arbitrary functions of the options, of
    the text and of what earlier steps have left behind (metadata, registries,
    attribute lists, the document tree: the type [R]).  A step that returns NULL, or
    the pointer it was given, gives [None]; every other result is a new block.
    Allocation never fails.  Debug output, progress and profiling are left out. *)
From Verif Require Import Base M_Opt.

(** The preprocessing steps (4070-4935), in order. *)
Inductive tstep :=
| TMetaVars | TCitations | TIndices | TAutolinks | TImageAttrs | TIal | TSpans | TIncludes
| TMarkers | TInlineTables | TAlpha | TEmojiFix | TFootnotes | THighlights | TInserts | TSupSub
| TRelaxed | THeaderless | TColspans | TCaptions | TDeflist | TDivs | TMdInHtml | THashtags
| TProof | TCritic | TLiquid.
(** The steps on the HTML (5194-5985), in order. *)
Inductive hstep :=
| HLiquid | HDivs | HTables | HHr | HWidont | HPoetry | HFootHash | HFootBreak
| HLevels | HQuotes | HAuto | HImgCaptions | HFigP | HBlockP | HIds | HObfuscate | HEmbed
| HMetaVars | HToc | HAria | HSyntax | HAbbr | HEmoji | HCitations | HBib | HIndexMarks | HIndex
| HTagSpace | HCollapse | HRelaxed | HAlpha | HEmptyP
| HPlugins | HScripts | HWrap | HCss
| HBlank | HSepRows | HPretty.

(** Pointer variables that own a block. *)
Inductive var :=
| VWorking | VStep (s : tstep) | VNormal | VFinal
| VManager | VMeta | VAlds | VAbbr | VBib | VIndex | VImg | VLiquidTags
| VParser | VDoc | VHtml
| VCss | VHead | VFoot | VLang | VQuotes | VScripts | VTitle | VCssPaths | VFooter | VOut.

Definition tnum (s : tstep) : N :=
  match s with
  | TMetaVars => 0 | TCitations => 1 | TIndices => 2 | TAutolinks => 3 | TImageAttrs => 4
  | TIal => 5 | TSpans => 6 | TIncludes => 7 | TMarkers => 8 | TInlineTables => 9 | TAlpha => 10
  | TEmojiFix => 11 | TFootnotes => 12 | THighlights => 13 | TInserts => 14 | TSupSub => 15
  | TRelaxed => 16 | THeaderless => 17 | TColspans => 18 | TCaptions => 19 | TDeflist => 20
  | TDivs => 21 | TMdInHtml => 22 | THashtags => 23 | TProof => 24 | TCritic => 25 | TLiquid => 26
  end.
Definition vnum (v : var) : N :=
  match v with
  | VStep s => 100 + tnum s
  | VWorking => 0 | VNormal => 1 | VFinal => 2 | VManager => 3 | VMeta => 4 | VAlds => 5
  | VAbbr => 6 | VBib => 7 | VIndex => 8 | VImg => 9 | VLiquidTags => 10 | VParser => 11
  | VDoc => 12 | VHtml => 13 | VCss => 14 | VHead => 15 | VFoot => 16 | VLang => 17
  | VQuotes => 18 | VScripts => 19 | VTitle => 20 | VCssPaths => 21 | VFooter => 22 | VOut => 23
  end.
Definition veq (a b : var) : bool := N.eqb (vnum a) (vnum b).

(** What the library decides.  [R] is everything remembered between steps. *)
Record lib (R : Type) := Lib {
  l_start : R;
  l_manager : opts -> bool;                           (* 3996: plugins were found *)
  l_pre : opts -> str -> option str;                  (* 4004 *)
  l_meta : str -> bool * R * str;                     (* 4037: metadata? and the text left *)
  l_alds : R -> str -> bool * R * str;                (* 4047 *)
  l_abbr : R -> str -> bool * R * str;                (* 4056 *)
  l_cites : R -> bool;                                (* bibliography or csl in the metadata *)
  l_bib : opts -> R -> bool * R;                      (* 4089-4141: a bibliography was loaded *)
  l_text : tstep -> opts -> R -> str -> option str * R;
  l_img : R -> bool;                                  (* img_attrs is not NULL *)
  l_tags : R -> bool;                                 (* liquid_tags is not NULL *)
  l_index : R -> bool;                                (* the index registry holds entries *)
  l_parse : opts -> R -> str -> bool * R;             (* 4996-5002: a document? *)
  l_filters : opts -> R -> option (bool * R);         (* 5047: NULL; a new document? *)
  l_tree : opts -> R -> bool -> bool -> R;            (* 5060-5119, wiki links and IALs searched? *)
  l_other : opts -> R -> option str;                  (* 5022 and 5123-5170: other output formats *)
  l_render : opts -> R -> option str;                 (* 5179-5185 *)
  l_html : hstep -> opts -> R -> str -> option str;
  l_has : var -> R -> bool;                           (* 5300-5335: the metadata has this value *)
  l_title : str -> option str;                        (* 5757 *)
  l_sheet : opts -> R -> str -> str -> option str     (* 5836-5915: embed one stylesheet *)
}.
Arguments l_start {R}. Arguments l_manager {R}. Arguments l_pre {R}. Arguments l_meta {R}.
Arguments l_alds {R}. Arguments l_abbr {R}. Arguments l_cites {R}. Arguments l_bib {R}.
Arguments l_text {R}. Arguments l_img {R}. Arguments l_tags {R}. Arguments l_index {R}.
Arguments l_parse {R}. Arguments l_filters {R}. Arguments l_tree {R}. Arguments l_other {R}.
Arguments l_render {R}. Arguments l_html {R}. Arguments l_has {R}. Arguments l_title {R}.
Arguments l_sheet {R}.

(** ** Memory *)

(** Live blocks with their contents, owners, the text pointer, and what is
    remembered. *)
Record st (R : Type) := St {
  fresh : nat; live : list (nat * str); env : var -> option nat; txt : nat; reg : R }.
Arguments St {R}. Arguments fresh {R}. Arguments live {R}. Arguments env {R}.
Arguments txt {R}. Arguments reg {R}.

(** Undefined behaviour: a block is read, or released, that is not live; a block of
    the caller is released. *)
Inductive ub := ReadFreed | FreeFreed | FreeForeign.
Inductive res (R A : Type) := Ok (a : A) (s : st R) | Ub (u : ub).
Arguments Ok {R A}. Arguments Ub {R A}.

Section Run.
Context {R : Type}.
Definition M (A : Type) := st R -> res R A.
Definition ret {A} (a : A) : M A := fun s => Ok a s.
Definition bind {A C} (m : M A) (k : A -> M C) : M C :=
  fun s => match m s with Ok a s' => k a s' | Ub u => Ub u end.
Notation "x <- m ;; k" := (bind m (fun x => k)) (at level 61, m at next level, right associativity).
Notation "m ;;; k" := (bind m (fun _ => k)) (at level 61, right associativity).

Fixpoint lookup (p : nat) (l : list (nat * str)) : option str :=
  match l with
  | [] => None
  | (q, c) :: l' => if Nat.eqb p q then Some c else lookup p l'
  end.
Definition drop (p : nat) (l : list (nat * str)) : list (nat * str) :=
  filter (fun b => negb (Nat.eqb p (fst b))) l.
Definition alloc (v : var) (c : str) : M nat := fun s =>
  Ok (fresh s) (St (S (fresh s)) ((fresh s, c) :: live s)
                   (fun w => if veq w v then Some (fresh s) else env s w) (txt s) (reg s)).
Definition read (p : nat) : M str := fun s =>
  match lookup p (live s) with Some c => Ok c s | None => Ub ReadFreed end.
(** Overwrite in place. *)
Definition store (p : nat) (c : str) : M unit := fun s =>
  match lookup p (live s) with
  | Some _ => Ok tt (St (fresh s) ((p, c) :: drop p (live s)) (env s) (txt s) (reg s))
  | None => Ub ReadFreed
  end.
Definition release (p : nat) : M unit := fun s =>
  match lookup p (live s) with
  | Some _ => Ok tt (St (fresh s) (drop p (live s)) (env s) (txt s) (reg s))
  | None => Ub FreeFreed
  end.
Definition owner (v : var) : M (option nat) := fun s => Ok (env s v) s.
(** [free(v)], and the variable keeps its value; NULL is allowed. *)
Definition free (v : var) : M unit :=
  p <- owner v ;; match p with Some p => release p | None => ret tt end.
Fixpoint free_all (l : list var) : M unit :=
  match l with
  | [] => ret tt
  | v :: l' => free v ;;; free_all l'
  end.
(** Use what a variable points to. *)
Definition touch (v : var) : M unit :=
  p <- owner v ;; match p with Some p => read p ;;; ret tt | None => ret tt end.
Fixpoint touch_all (l : list var) : M unit :=
  match l with
  | [] => ret tt
  | v :: l' => touch v ;;; touch_all l'
  end.
Definition isset (v : var) : M bool :=
  p <- owner v ;; ret (match p with Some _ => true | None => false end).
Definition text_ptr : M nat := fun s => Ok (txt s) s.
Definition set_text (p : nat) : M unit := fun s => Ok tt (St (fresh s) (live s) (env s) p (reg s)).
Definition get_reg : M R := fun s => Ok (reg s) s.
Definition set_reg (r : R) : M unit := fun s => Ok tt (St (fresh s) (live s) (env s) (txt s) r).
(** A variable goes out of scope. *)
Definition forget (v : var) : M unit := fun s =>
  Ok tt (St (fresh s) (live s) (fun w => if veq w v then None else env s w) (txt s) (reg s)).
(** A pointer is handed over to another variable. *)
Definition move (a b : var) : M unit := fun s =>
  Ok tt (St (fresh s) (live s)
            (fun w => if veq w b then env s a else if veq w a then None else env s w) (txt s) (reg s)).
Definition own_if (b : bool) (v : var) : M unit := if b then alloc v [] ;;; ret tt else ret tt.

(** ** Options *)
Definition kramdown_like (o : opts) : bool := mode_is 3 o || mode_is 4 o.
Definition mmd_like (o : opts) : bool := mode_is 2 o || mode_is 3 o || mode_is 4 o.
Definition some_list (v : val) : bool := match v with Vl (Some _) => true | _ => false end.
Definition some_str (v : val) : bool := match v with Vs (Some _) => true | _ => false end.

(** The condition in front of each step; [meta]: there is metadata, [cite]:
    should_process_citations (4151-4165). *)
Definition twhen (o : opts) (meta cite : bool) (s : tstep) : bool :=
  match s with
  | TMetaVars => meta && is_on (o EnableMetadataVariables)
  | TCitations => is_on (o EnableCitations) && cite
  | TIndices => is_on (o EnableIndices)
  | TAutolinks => is_on (o EnableAutolink)
  | TImageAttrs => mmd_like o
  | TIal => kramdown_like o
  | TSpans => is_on (o EnableSpans) && kramdown_like o
  | TIncludes => is_on (o EnableFileIncludes)
  | TMarkers => is_on (o EnableMarkedExtensions)
  | TInlineTables => true
  | TAlpha => is_on (o AllowAlphaLists)
  | TEmojiFix => is_on (o EnableEmojiAutocorrect) && (mode_is 4 o || mode_is 1 o)
  | TFootnotes => is_on (o EnableFootnotes)
  | THighlights => negb (is_on (o ProofreaderMode))
  | TInserts => true
  | TSupSub => is_on (o EnableSupSub)
  | TRelaxed => is_on (o RelaxedTables) && is_on (o EnableTables)
  | THeaderless | TColspans | TCaptions => is_on (o EnableTables)
  | TDeflist => is_on (o EnableDefinitionLists)
  | TDivs => is_on (o EnableDivs) && mode_is 4 o
  | TMdInHtml => is_on (o EnableMarkdownInHtml)
  | THashtags => is_on (o EnableHashtags)
  | TProof => is_on (o ProofreaderMode)
  | TCritic => is_on (o EnableCriticMarkup)
  | TLiquid => true
  end.
Definition tsteps : list tstep :=
  [TCitations; TIndices; TAutolinks; TImageAttrs; TIal; TSpans; TIncludes; TMarkers;
   TInlineTables; TAlpha; TEmojiFix; TFootnotes; THighlights; TInserts; TSupSub; TRelaxed;
   THeaderless; TColspans; TCaptions; TDeflist; TDivs; TMdInHtml; THashtags; TProof; TCritic;
   TLiquid].
(** Those that get a copy with a line feed at the end (4358-4372 and three more). *)
Definition wants_newline (s : tstep) : bool :=
  match s with TRelaxed | THeaderless | TColspans | TCaptions => true | _ => false end.
Definition no_line_end (t : str) : bool :=
  match rev t with
  | [] => false
  | c :: _ => negb (ceq c NL || ceq c CR)
  end.
(** Other data a step reads. *)
Definition tuses (s : tstep) : list var :=
  match s with
  | TMetaVars | TIncludes => [VMeta]
  | TCitations => [VBib]
  | TMdInHtml => [VImg]
  | _ => []
  end.
(** Data a step leaves behind in a block of its own. *)
Definition tleaves (l : lib R) (s : tstep) : M unit :=
  r <- get_reg ;;
  match s with
  | TIndices => own_if (l_index l r) VIndex
  | TImageAttrs => own_if (l_img l r) VImg
  | TLiquid => own_if (l_tags l r) VLiquidTags
  | _ => ret tt
  end.

(** One preprocessing step. *)
Definition run_tstep (l : lib R) (o : opts) (meta cite : bool) (s : tstep) : M unit :=
  if twhen o meta cite s then
    p <- text_ptr ;; t <- read p ;;
    touch_all (tuses s) ;;;
    r <- get_reg ;;
    (if (wants_newline s && no_line_end t)%bool then
       q <- alloc VNormal (t ++ [NL]) ;; t' <- read q ;;
       let (out, r') := l_text l s o r t' in
       set_reg r' ;;;
       (match out with
        | Some c => alloc (VStep s) c ;;; ret tt
        | None => ret tt
        end) ;;;
       free VNormal ;;; forget VNormal ;;;
       (match out with
        | Some _ => n <- owner (VStep s) ;; (match n with Some n => set_text n | None => ret tt end)
        | None => ret tt
        end)
     else
       let (out, r') := l_text l s o r t in
       set_reg r' ;;;
       (match out with
        | Some c => n <- alloc (VStep s) c ;; set_text n
        | None => ret tt
        end)) ;;;
    tleaves l s
  else ret tt.
Fixpoint run_tsteps (l : lib R) (o : opts) (meta cite : bool) (ss : list tstep) : M unit :=
  match ss with
  | [] => ret tt
  | s :: ss' => run_tstep l o meta cite s ;;; run_tsteps l o meta cite ss'
  end.

(** 3985-4068: the working copy, plugins, what is taken out of the text.  Taking
    out the metadata moves text_ptr forward inside its block; here the block is
    shortened instead.  The other two write in place. *)
Definition take_out (f : R -> str -> bool * R * str) (v : var) : M unit :=
  p <- text_ptr ;; t <- read p ;; r <- get_reg ;;
  let '(b, r', t') := f r t in
  set_reg r' ;;; store p t' ;;; own_if b v.
Definition prepare (l : lib R) (o : opts) (text : str) : M unit :=
  p <- alloc VWorking text ;;
  own_if (is_on (o EnablePlugins) && l_manager l o) VManager ;;;
  m <- isset VManager ;;
  t <- read p ;;
  (match (if m then l_pre l o t else None) with
   | Some t' => q <- alloc VWorking t' ;; release p ;;; set_text q
   | None => set_text p
   end) ;;;
  (if mmd_like o then
     take_out (fun _ t => l_meta l t) VMeta ;;;
     (if kramdown_like o then take_out (l_alds l) VAlds else ret tt) ;;;
     take_out (l_abbr l) VAbbr
   else ret tt).

(** 4946-4979 *)
Definition normalize : M str :=
  p <- text_ptr ;; t <- read p ;;
  (match t with
   | [] => n <- alloc VFinal [NL] ;; set_text n
   | _ => if no_line_end t then n <- alloc VFinal (t ++ [NL]) ;; set_text n else ret tt
   end) ;;;
  q <- text_ptr ;; read q.

(** One step on the HTML: the result replaces the old text. *)
Definition hwhen (o : opts) (meta cite : bool) (r : R) (l : lib R) (s : hstep) : bool :=
  match s with
  | HLiquid => l_tags l r
  | HDivs => is_on (o EnableDivs) && mode_is 4 o
  | HTables => is_on (o EnableTables)
  | HHr => is_on (o HrPageBreak)
  | HWidont => is_on (o EnableWidont)
  | HPoetry => is_on (o CodeIsPoetry)
  | HFootHash => is_on (o RandomFootnoteIds)
  | HFootBreak => is_on (o PageBreakBeforeFootnotes)
  | HLevels => meta
  | HQuotes => l_has l VQuotes r
  | HAuto | HImgCaptions | HFigP | HBlockP => true
  | HIds => is_on (o GenerateHeaderIds)
  | HObfuscate => is_on (o ObfuscateEmails)
  | HEmbed => is_on (o EmbedImages)
  | HMetaVars => meta && is_on (o EnableMetadataVariables)
  | HToc => is_on (o EnableMarkedExtensions)
  | HAria => is_on (o EnableAria)
  | HSyntax => some_str (o CodeHighlighter)
  | HAbbr => true                                  (* the list may be empty: l_html gives None *)
  | HEmoji => mode_is 1 o || mode_is 4 o
  | HCitations => is_on (o EnableCitations) && cite
  | HBib => is_on (o EnableCitations) && cite && negb (is_on (o SuppressBibliography))
  | HIndexMarks | HIndex => is_on (o EnableIndices) && l_index l r
  | HTagSpace => true
  | HCollapse => negb (is_on (o Pretty))
  | HRelaxed => is_on (o EnableTables) && is_on (o RelaxedTables)
  | HAlpha => is_on (o AllowAlphaLists)
  | HEmptyP => is_on (o EnableMarkedExtensions)
  | HPlugins | HScripts | HWrap | HCss => true     (* their conditions are in [finish] *)
  | HBlank => true
  | HSepRows => is_on (o EnableTables)
  | HPretty => is_on (o Pretty)
  end.
Definition huses (s : hstep) : list var :=
  match s with
  | HLiquid => [VLiquidTags]
  | HTables | HIds | HToc | HAria => [VDoc]
  | HFootHash => [VWorking]
  | HQuotes => [VQuotes]
  | HMetaVars => [VMeta]
  | HAbbr => [VAbbr]
  | HCitations | HBib => [VBib]
  | HIndexMarks | HIndex => [VIndex]
  | HPlugins => [VManager]
  | HScripts => [VScripts]
  | _ => []
  end.
Definition replace_html (f : R -> str -> option str) : M unit :=
  h <- owner VHtml ;;
  match h with
  | None => ret tt
  | Some p =>
      t <- read p ;; r <- get_reg ;;
      match f r t with
      | Some t' => alloc VHtml t' ;;; release p
      | None => ret tt
      end
  end.
Definition run_hstep (l : lib R) (o : opts) (meta cite : bool) (s : hstep) : M unit :=
  r <- get_reg ;;
  if hwhen o meta cite r l s then
    h <- isset VHtml ;;
    (if h then touch_all (huses s) ;;; replace_html (l_html l s o) else ret tt)
  else ret tt.
Fixpoint run_hsteps (l : lib R) (o : opts) (meta cite : bool) (ss : list hstep) : M unit :=
  match ss with
  | [] => ret tt
  | s :: ss' => run_hstep l o meta cite s ;;; run_hsteps l o meta cite ss'
  end.
(** 5203-5292; 5351-5587; 5593-5668; 5945-5985. *)
Definition hsteps1 := [HLiquid; HDivs; HTables; HHr; HWidont; HPoetry; HFootHash; HFootBreak].
Definition hsteps2 :=
  [HLevels; HQuotes; HAuto; HImgCaptions; HFigP; HBlockP; HIds; HObfuscate; HEmbed; HMetaVars;
   HToc; HAria; HSyntax; HAbbr; HEmoji; HCitations; HBib; HIndexMarks; HIndex].
Definition hsteps3 := [HTagSpace; HCollapse; HRelaxed; HAlpha; HEmptyP].
Definition hsteps4 := [HBlank; HSepRows; HPretty].

(** 5671-5713, in this order.  The test at 5680 compares two different blocks. *)
Definition cleanup : list var :=
  [VDoc; VParser; VWorking; VStep TIal; VStep TSpans; VStep TIncludes; VStep TEmojiFix;
   VStep TMarkers; VStep TFootnotes; VStep THighlights; VStep TInserts; VStep TAlpha;
   VStep TRelaxed; VStep THeaderless; VStep TCaptions; VStep TDeflist; VStep TDivs;
   VStep TMetaVars; VStep TAutolinks; VStep TMdInHtml; VStep THashtags; VStep TCritic;
   VStep TProof; VStep TLiquid; VLiquidTags; VMeta; VAbbr; VAlds; VImg; VBib].

(** 5299-5346: copies of metadata values. *)
Fixpoint dup_all (l : lib R) (vs : list var) : M unit :=
  match vs with
  | [] => ret tt
  | v :: vs' => r <- get_reg ;; own_if (l_has l v r) v ;;; dup_all l vs'
  end.

(** 5768-5929 *)
Definition sheet_list (o : opts) : option (list str) :=
  match o StylesheetPaths with Vl x => x | _ => None end.
Definition sheet_count (o : opts) : nat :=
  match o StylesheetCount with Vn n => Z.to_nat n | _ => 0 end.
Definition sheets_given (o : opts) : bool :=
  match sheet_list o with Some _ => Nat.ltb 0 (sheet_count o) | None => false end.
(** 5819-5821: [css_paths[0] == css_metadata] holds for the array allocated here, and
    for an array of the caller's that starts with NULL when there is no css in the
    metadata. *)
Definition free_paths (o : opts) (css : bool) : M unit :=
  own <- isset VCssPaths ;;
  if own then free VCssPaths
  else match sheet_list o with
       | Some [] => if css then ret tt else (fun _ => Ub FreeForeign)
       | _ => ret tt
       end.
Fixpoint embed_sheets (l : lib R) (o : opts) (ps : list str) : M unit :=
  match ps with
  | [] => ret tt
  | path :: ps' => replace_html (fun r t => l_sheet l o r path t) ;;; embed_sheets l o ps'
  end.
Definition wrap (l : lib R) (o : opts) : M unit :=
  css <- isset VCss ;;
  own_if (negb (sheets_given o) && css) VCssPaths ;;;   (* 5775-5782 *)
  foot <- isset VFoot ;; scripts <- isset VScripts ;;
  own_if (foot || scripts) VFooter ;;;                  (* 5787-5808 *)
  touch_all [VTitle; VCssPaths; VCss; VHead; VFoot; VScripts; VFooter; VLang] ;;;
  h <- owner VHtml ;; r <- get_reg ;;
  (match h with
   | None => ret tt
   | Some p =>
       t <- read p ;;
       out <- (match l_html l HWrap o r t with
               | Some t' => alloc VOut t' ;;; ret true
               | None => ret false
               end) ;;
       free_paths o css ;;;
       (if out then release p ;;; move VOut VHtml else ret tt)
   end) ;;;
  free VFooter ;;;                                      (* 5827 *)
  (if is_on (o EmbedStylesheet) then                    (* 5832-5915 *)
     own <- isset VCssPaths ;;
     if own then touch VCssPaths
     else if sheets_given o then
       embed_sheets l o (rev (firstn (sheet_count o) (match sheet_list o with Some x => x | None => [] end)))
     else ret tt
   else ret tt).

Definition format_is (n : Z) (o : opts) : bool :=
  match o OutputFormat with Vn m => Z.eqb m n | _ => false end.
(** Markdown, terminal, manual page and filtered JSON (5123-5170). *)
Definition format_other (o : opts) : bool :=
  match o OutputFormat with Vn m => Z.leb 2 m && Z.leb m 11 | _ => false end.
Definition any_script (o : opts) : bool :=
  match o ScriptTags with
  | Vl (Some l) => existsb (fun s => match s with [] => false | _ => true end) l
  | _ => false
  end.
Definition no_title (o : opts) : bool :=
  match o DocumentTitle with Vs (Some (_ :: _)) => false | _ => true end.

(** 5671-5989, from the cleanup on. *)
Definition finish (l : lib R) (o : opts) (meta cite : bool) : M (option nat) :=
  free_all cleanup ;;;
  m <- isset VManager ;;
  (if m then run_hstep l o meta cite HPlugins else ret tt) ;;;
  own_if (any_script o) VScripts ;;;
  free VManager ;;;
  h <- owner VHtml ;;
  (match h with
   | Some p =>
       if (is_on (o TitleFromH1) && is_on (o Standalone) && no_title o)%bool then
         t <- read p ;; own_if (match l_title l t with Some _ => true | None => false end) VTitle
       else ret tt
   | None => ret tt
   end) ;;;
  (match h with
   | Some _ =>
       if is_on (o Standalone) then wrap l o
       else (s <- isset VScripts ;; if s then run_hstep l o meta cite HScripts else ret tt)
   | None => ret tt
   end) ;;;
  free_all [VScripts; VCss; VHead; VFoot; VLang; VQuotes; VTitle] ;;;
  run_hsteps l o meta cite hsteps4 ;;;
  owner VHtml.

(** 5060-5668, behind the parser and the AST filters. *)
Definition found (lit t : str) : bool := match strstr lit t with Some _ => true | None => false end.
Definition after (l : lib R) (o : opts) (meta cite : bool) : M (option nat) :=
  p <- text_ptr ;;
  wiki <- (if is_on (o EnableWikiLinks) then t <- read p ;; ret (found (B "[[") t) else ret false) ;;
  alds <- isset VAlds ;;
  ial <- (if (alds || kramdown_like o)%bool
          then t <- read p ;; ret (found (B "{:") t || found (B "{#") t || found (B "{.") t)%bool
          else ret false) ;;
  touch_all [VDoc; VAlds; VImg] ;;;
  r <- get_reg ;;
  set_reg (l_tree l o r wiki ial) ;;;
  r <- get_reg ;;
  if format_other o then
    (* 5123-5170: nothing is released *)
    (match l_other l o r with
     | Some j => n <- alloc VOut j ;; ret (Some n)
     | None => ret None
     end)
  else
    (match l_render l o r with Some h => alloc VHtml h ;;; ret tt | None => ret tt end) ;;;
    run_hsteps l o meta cite hsteps1 ;;;
    touch VMeta ;;;
    (if meta then dup_all l [VCss; VHead; VFoot; VLang; VQuotes] else ret tt) ;;;
    run_hsteps l o meta cite hsteps2 ;;;
    free VIndex ;;;                                     (* 5590 *)
    run_hsteps l o meta cite hsteps3 ;;;
    finish l o meta cite.

(** 5006-5058: behind the parser; [ok]: there is a document. *)
Definition after_parse (l : lib R) (o : opts) (meta cite ok : bool) : M (option nat) :=
  free VFinal ;;;                                       (* 5006-5009 *)
  if negb ok then free_all [VParser; VWorking; VMeta] ;;; ret None
  else
    r <- get_reg ;;
    if format_is 1 o then                               (* 5018-5028 *)
      n <- (match l_other l o r with
            | Some j => n <- alloc VOut j ;; ret (Some n)
            | None => ret None
            end) ;;
      free_all [VDoc; VParser; VWorking; VMeta] ;;; ret n
    else
      (* 5032-5058 *)
      let filters := (some_list (o AstFilterCommands) &&
                      match o AstFilterCount with Vn n => Z.ltb 0 n | _ => false end)%bool in
      match (if filters then l_filters l o r else Some (false, r)) with
      | None =>
          if is_on (o AstFilterStrict) then free_all [VDoc; VParser; VWorking; VMeta] ;;; ret None
          else after l o meta cite
      | Some (new, r') =>
          set_reg r' ;;;
          (if new then d <- owner VDoc ;; alloc VDoc [] ;;;
                       (match d with Some p => release p | None => ret tt end) else ret tt) ;;;
          after l o meta cite
      end.

(** 3985-4979: everything in front of the parser.  The options after 4060-4070,
    whether there is metadata, should_process_citations, and the text for the
    parser. *)
Definition front (l : lib R) (o : opts) (text : str) : M (opts * bool * bool * str) :=
  prepare l o text ;;;
  meta <- isset VMeta ;; touch VMeta ;;; r <- get_reg ;;
  let o := if (meta && l_cites l r)%bool then set (EnableCitations, on) o else o in
  run_tstep l o meta false TMetaVars ;;;
  touch VMeta ;;; r <- get_reg ;;
  let (bib, r') := l_bib l o r in
  set_reg r' ;;; own_if bib VBib ;;;
  let cite := (bib || some_list (o BibliographyFiles) || some_str (o CslFile) ||
               (meta && l_cites l r'))%bool in
  run_tsteps l o meta cite tsteps ;;;
  fed <- normalize ;;
  ret (o, meta, cite, fed).

(** The whole function, for a text that is not empty (3959-3963). *)
Definition convert (l : lib R) (o : opts) (text : str) : M (option nat) :=
  x <- front l o text ;;
  let '(o, meta, cite, fed) := x in
  alloc VParser [] ;;;
  r <- get_reg ;;
  let (ok, r') := l_parse l o r fed in
  set_reg r' ;;; own_if ok VDoc ;;;
  after_parse l o meta cite ok.
Definition start (l : lib R) : st R := St 0 [] (fun _ => None) 0 (l_start l).
End Run.
