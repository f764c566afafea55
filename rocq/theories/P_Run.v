(** C26, C27, C73-C77: the whole conversion. *)
From Verif Require Import Base BaseL M_Highlight M_Opt M_Run S_Run L_Run L_Run2 L_Run3 L_Run4 L_Run5 L_Run6 L_Run7.

(** A small library for the examples: the document is its text; highlights are the
    ones of [M_Highlight]; a first [-] is metadata with a stylesheet. *)
Definition demo : lib str :=
  Lib str [] (fun _ => false) (fun _ _ => None)
    (fun t => match t with "-"%char :: t' => (true, [], t') | _ => (false, [], t) end)
    (fun r t => (false, r, t)) (fun r t => (false, r, t))
    (fun _ => false) (fun _ r => (false, r))
    (fun x _ r t =>
       match x with
       | THighlights => (match process_highlights [] t with Some (w, _) => Some (w_out w) | None => None end, r)
       | TSupSub => (Some (B "!" ++ t), r)
       | _ => (None, r)
       end)
    (fun _ => false) (fun _ => false) (fun _ => false)
    (fun _ _ t => (true, t)) (fun _ _ => None) (fun _ r _ _ => r) (fun _ r => Some r)
    (fun _ r => Some (B "<p>" ++ r ++ B "</p>"))
    (fun x _ _ h => match x with HWrap => Some (B "<html>" ++ h ++ B "</html>") | HPretty => Some (h ++ [NL]) | _ => None end)
    (fun v _ => match v with VCss => true | _ => false end) (fun _ => None) (fun _ _ p h => Some (p ++ h)).

(** ** C26 *)
(** Everything in front of the parser always succeeds, and hands over the text left
    by the last step with its last line closed.  What the parser makes of it depends
    on nothing else of the text: see C74. *)
Theorem C26_handed_over {R} (l : lib R) o text :
  exists o' meta alds cite r t m fed s,
    preprocessed l o text o' meta alds cite r t m /\ closes t fed /\
    front l o text (start l) = Ok (o', meta, cite, fed) s /\ reg s = r.
Proof.
  destruct (front_ok l o text) as (s & a & o' & meta & alds & cite & t & m & fed & Rd).
  exists o', meta, alds, cite, (reg s), t, m, fed, s.
  destruct Rd. auto.
Qed.
Print Assumptions C26_handed_over.
(** The text handed over ends with a line break, and is the text with at most a
    newline behind it. *)
Theorem C26_closed t fed : closes t fed ->
  (exists a c, fed = a ++ [c] /\ (c = NL \/ c = CR)) /\ (fed = t \/ fed = t ++ [NL]) /\
  (fed = t <-> exists a c, t = a ++ [c] /\ (c = NL \/ c = CR)).
Proof.
  intro H. destruct H as [|a c Hc|a c H1 H2].
  - split; [exists [], NL; auto|]. split; [auto|]. split; [discriminate|].
    intros (a & c & E & _). now destruct a.
  - split; [exists a, c; auto|]. split; [auto|]. split; [eauto|auto].
  - split; [exists (a ++ [c]), NL; rewrite <- app_assoc; auto|].
    split; [right; now rewrite <- app_assoc|]. split.
    + intro E. exfalso. apply (f_equal (@length _)) in E. rewrite !app_length in E. cbn in E. lia.
    + intros (b & d & E & Hd). apply app_inj_tail in E as [-> ->]. destruct Hd; contradiction.
Qed.
Print Assumptions C26_closed.
Theorem C26_unique t fed fed' : closes t fed -> closes t fed' -> fed = fed'.
Proof. exact (closes_det t fed fed'). Qed.
Print Assumptions C26_unique.
Example C26_case :
  match front demo (for_mode 4) (B "some text ==b==") (start demo) with
  | Ok (_, meta, _, fed) _ => (meta, fed)
  | Ub _ => (true, [])
  end = (false, B "!some text <mark>b</mark>" ++ [NL]).
Proof. vm_compute. reflexivity. Qed.

(** ** C27 *)
(** The full claim: every conversion ends without touching freed memory. *)
Definition C27_full : Prop := forall R (l : lib R) o text, exists p s, convert l o text (start l) = Ok p s.
(** It fails: with the default options, for every document whose text does not end
    with a line break when it gets to the parser. *)
Theorem C27_refuted : ~ C27_full.
Proof. intro H. destruct (H str demo default (B "a")) as (p & s & E). vm_compute in E. discriminate. Qed.
Print Assumptions C27_refuted.
(** It also fails for a stylesheet in the metadata that is to be embedded, and for an
    empty array of stylesheets. *)
Definition embedding : opts := set (EmbedStylesheet, on) (set (Standalone, on) default).
Definition no_sheets : opts := set (StylesheetPaths, Vl (Some [])) (set (Standalone, on) default).
Theorem C27_embed_refuted : convert demo embedding (B "-x" ++ [NL]) (start demo) = Ub ReadFreed.
Proof. vm_compute. reflexivity. Qed.
Print Assumptions C27_embed_refuted.
Theorem C27_foreign_refuted : convert demo no_sheets (B "x" ++ [NL]) (start demo) = Ub FreeForeign.
Proof. vm_compute. reflexivity. Qed.
Print Assumptions C27_foreign_refuted.
(** Exactly these three go wrong. *)
Theorem C27_exact_partial {R} (l : lib R) o text o' meta alds cite r t m fed :
  preprocessed l o text o' meta alds cite r t m -> closes t fed ->
  ((exists p s, convert l o text (start l) = Ok p s) <->
   ~ searches_freed l o' alds r t fed /\ ~ embeds_freed l o' meta alds r fed /\
   ~ frees_foreign l o' meta alds r fed).
Proof. exact (convert_safe l o text o' meta alds cite r t m fed). Qed.
Print Assumptions C27_exact_partial.
(** In words for the caller: a text that reaches the parser with its last line closed,
    and is not made a standalone page, is safe. *)
Theorem C27_plain_partial {R} (l : lib R) o text o' meta alds cite r t m :
  preprocessed l o text o' meta alds cite r t m -> closes t t -> o Standalone <> Vb true ->
  exists p s, convert l o text (start l) = Ok p s.
Proof. exact (convert_plain l o text o' meta alds cite r t m). Qed.
Print Assumptions C27_plain_partial.
Example C27_case :
  match convert demo (for_mode 4) (B "some text ==b==" ++ [NL]) (start demo) with
  | Ok p s => content p s | Ub _ => None end = Some (B "<p>!some text <mark>b</mark>" ++ [NL] ++ B "</p>").
Proof. vm_compute. reflexivity. Qed.

(** ** C73 *)
(** The steps that are enabled are run one after the other, each on the text its
    predecessor left, in the order of [order], behind plugins, metadata, attribute
    lists and abbreviations; and there is only one such reading. *)
Theorem C73_order {R} (l : lib R) o text :
  exists o' meta alds cite r t m, preprocessed l o text o' meta alds cite r t m /\
    forall o2 meta2 alds2 cite2 r2 t2 m2, preprocessed l o text o2 meta2 alds2 cite2 r2 t2 m2 ->
      o2 = o' /\ meta2 = meta /\ alds2 = alds /\ cite2 = cite /\ r2 = r /\ t2 = t /\ m2 = m.
Proof.
  destruct (front_ok l o text) as (s & a & o' & meta & alds & cite & t & m & fed & Rd).
  exists o', meta, alds, cite, (reg s), t, m. split; [now destruct Rd|].
  intros o2 meta2 alds2 cite2 r2 t2 m2 P. destruct Rd as [_ _ P' _ _ _ _ _ _ _ _ _ _].
  exact (preprocessed_det l o text _ _ _ _ _ _ _ _ _ _ _ _ _ _ P P').
Qed.
Print Assumptions C73_order.
(** The run follows that reading. *)
Theorem C73_run {R} (l : lib R) o text o' meta alds cite r t m fed :
  preprocessed l o text o' meta alds cite r t m -> closes t fed ->
  exists s, front l o text (start l) = Ok (o', meta, cite, fed) s /\ reg s = r.
Proof.
  intros P C. destruct (front_exact l o text o' meta alds cite r t m fed P C) as (s & a & E & Rd).
  exists s. split; [now destruct Rd|assumption].
Qed.
Print Assumptions C73_run.
(** Every step is in its place exactly once, and those that made a new text ran. *)
Theorem C73_once : NoDup (TMetaVars :: order) /\ forall s, In s (TMetaVars :: order).
Proof.
  split.
  - apply NoDup_cons; [rewrite in_order; auto|exact order_nodup].
  - intro s. destruct (tstep_dec TMetaVars s) as [->|N]; [now left|right]. apply in_order. auto.
Qed.
Print Assumptions C73_once.
Theorem C73_made {R} (l : lib R) o text o' meta alds cite r t m :
  preprocessed l o text o' meta alds cite r t m ->
  forall x, In x m -> runs o' meta cite x.
Proof. exact (made_runs l o text o' meta alds cite r t m). Qed.
Print Assumptions C73_made.
(** A library that writes down which steps ran: unified mode, then GFM. *)
Definition tracer : lib (list tstep) :=
  Lib (list tstep) [] (fun _ => false) (fun _ _ => None)
    (fun t => (true, [], t)) (fun r t => (false, r, t)) (fun r t => (false, r, t))
    (fun _ => false) (fun _ r => (false, r)) (fun x _ r t => (None, r ++ [x]))
    (fun _ => false) (fun _ => false) (fun _ => false)
    (fun _ r _ => (true, r)) (fun _ _ => None) (fun _ r _ _ => r) (fun _ _ => None) (fun _ _ => None)
    (fun _ _ _ _ => None) (fun _ _ => false) (fun _ => None) (fun _ _ _ _ => None).
Example C73_case :
  let ran m := match front tracer (for_mode m) (B "a") (start tracer) with Ok _ s => reg s | Ub _ => [] end in
  ran 4%Z = [TMetaVars; TIndices; TAutolinks; TImageAttrs; TIal; TSpans; TIncludes; TMarkers; TInlineTables; TAlpha;
             TEmojiFix; TFootnotes; THighlights; TInserts; TSupSub; TRelaxed; THeaderless; TColspans; TCaptions; TDeflist;
             TDivs; TMdInHtml; TCritic; TLiquid] /\
  ran 1%Z = [TAutolinks; TInlineTables; THighlights; TInserts; THeaderless; TColspans; TCaptions; TLiquid].
Proof. vm_compute. split; reflexivity. Qed.

(** ** C74 *)
(** What is returned is the page made of the document, or the other output asked
    for, or nothing. *)
Theorem C74_returned {R} (l : lib R) o text o' meta alds cite r t m fed p s :
  preprocessed l o text o' meta alds cite r t m -> closes t fed ->
  convert l o text (start l) = Ok p s ->
  content p s = returned l o' (manager l o) meta alds cite r fed.
Proof. intro P. exact (convert_returns l o text o' meta alds cite r t m fed P p s). Qed.
Print Assumptions C74_returned.
(** The words of the specification that are shared with the model mean what they
    say. *)
Theorem C74_words o :
  (format_is 1 o = true <-> o OutputFormat = Vn 1) /\
  (format_other o = true <-> exists n, o OutputFormat = Vn n /\ (2 <= n <= 11)%Z) /\
  (kramdown_like o = true <-> in_mode o [3; 4]%Z) /\
  (sheets_given o = true <-> exists x n, o StylesheetPaths = Vl (Some x) /\ o StylesheetCount = Vn n /\ (0 < n)%Z) /\
  (forall x, sheet_list o = Some x <-> o StylesheetPaths = Vl (Some x)) /\
  (forall n, o StylesheetCount = Vn n -> sheet_count o = Z.to_nat n) /\
  (forall v, some_list v = true <-> exists x, v = Vl (Some x)) /\
  (forall v, some_str v = true <-> exists x, v = Vs (Some x)) /\
  (forall lit t, found lit t = true <-> exists a b, t = a ++ lit ++ b).
Proof. exact (words o). Qed.
Print Assumptions C74_words.
Example C74_case :
  match convert demo (set (Pretty, on) (set (Standalone, on) (for_mode 0))) (B "a") (start demo) with
  | Ok p s => content p s | Ub _ => None end = Some (B "<html><p>a" ++ [NL] ++ B "</p></html>" ++ [NL]).
Proof. vm_compute. reflexivity. Qed.

(** ** C75 *)
(** The full claim: at the end, nothing is allocated but the result. *)
Definition C75_full : Prop := forall R (l : lib R) o text p s,
  convert l o text (start l) = Ok p s -> forall q, lookup q (live s) <> None -> p = Some q.
(** It fails: the text behind superscripts and subscripts stays allocated... *)
Theorem C75_refuted : ~ C75_full.
Proof.
  intro H.
  assert (X : match convert demo (for_mode 4) (B "a" ++ [NL]) (start demo) with
              | Ok (Some q) s => match lookup 2 (live s) with Some _ => Nat.eqb q 5 | None => false end
              | _ => false
              end = true) by (vm_compute; reflexivity).
  pose proof (H str demo (for_mode 4) (B "a" ++ [NL])) as K.
  destruct (convert demo (for_mode 4) (B "a" ++ [NL]) (start demo)) as [[q|] s|]; try discriminate.
  destruct (lookup 2 (live s)) eqn:L; [|discriminate]. apply Nat.eqb_eq in X. subst q.
  specialize (K _ _ eq_refl 2). rewrite L in K. specialize (K ltac:(discriminate)). discriminate.
Qed.
Print Assumptions C75_refuted.
(** With HTML as output, exactly the result and the texts made by six of the steps
    stay allocated... *)
Theorem C75_html_partial {R} (l : lib R) o text o' meta alds cite r t m fed p s :
  preprocessed l o text o' meta alds cite r t m -> closes t fed ->
  convert l o text (start l) = Ok p s -> html_out o' (parsed l o' r fed) ->
  forall q, lookup q (live s) <> None <->
    p = Some q \/ exists x, In x forgotten /\ In x m /\ env s (VStep x) = Some q.
Proof. intros P C E. exact (proj1 (proj2 (convert_end l o text o' meta alds cite r t m fed P p s C E))). Qed.
Print Assumptions C75_html_partial.
(** ... and otherwise the texts made by all steps. *)
Theorem C75_other_partial {R} (l : lib R) o text o' meta alds cite r t m fed p s :
  preprocessed l o text o' meta alds cite r t m -> closes t fed ->
  convert l o text (start l) = Ok p s -> ~ html_out o' (parsed l o' r fed) ->
  forall x, In x m -> kept s x.
Proof. intros P C E. exact (proj2 (proj2 (convert_end l o text o' meta alds cite r t m fed P p s C E))). Qed.
Print Assumptions C75_other_partial.
Example C75_case :
  match convert demo (for_mode 0) (B "some text ==b==" ++ [NL]) (start demo) with
  | Ok p s => (p, map fst (live s)) | Ub _ => (None, []) end = (Some 4, [4]).
Proof. vm_compute. reflexivity. Qed.
Example C75_case_other :
  match convert demo (set (OutputFormat, Vn 2) (for_mode 4)) (B "a" ++ [NL]) (start demo) with
  | Ok p s => (p, map fst (live s)) | Ub _ => (None, []) end = (Some 5, [5; 4; 3; 2; 1; 0]).
Proof. vm_compute. reflexivity. Qed.

(** ** C76 *)
(** A preprocessing step whose feature is switched off, or that is not meant for the
    mode, has no influence: replacing it by anything changes nothing.  (Citations can
    be switched on by the document's metadata.) *)
Theorem C76_text {R} (l : lib R) x f o text :
  x <> TCitations -> ~ meets o (needs x) ->
  convert (other_text x f l) o text (start (other_text x f l)) = convert l o text (start l).
Proof. exact (convert_text_off l x f o text). Qed.
Print Assumptions C76_text.
(** The same for a step on the HTML; the page is wrapped only when it is to stand
    alone. *)
Theorem C76_html {R} (l : lib R) x f o text :
  x <> HCitations -> x <> HBib -> ~ meets o (hneeds x) \/ x = HWrap /\ o Standalone <> Vb true ->
  convert (other_html x f l) o text (start (other_html x f l)) = convert l o text (start l).
Proof. exact (convert_html_off l x f o text). Qed.
Print Assumptions C76_html.
(** Superscripts in CommonMark mode; and in unified mode, where they do matter. *)
Example C76_case :
  ~ meets (for_mode 0) (needs TSupSub) /\
  (let bad := other_text TSupSub (fun _ r _ => (Some (B "oops" ++ [NL]), r)) demo in
   let shown l m := match convert l (for_mode m) (B "a" ++ [NL]) (start l) with Ok p s => content p s | Ub _ => None end in
   shown bad 0%Z = shown demo 0%Z /\ shown bad 4%Z <> shown demo 4%Z).
Proof.
  split; [intros [H _]; specialize (H EnableSupSub (or_introl eq_refl)); discriminate|].
  vm_compute. split; [reflexivity|discriminate].
Qed.

(** ** C77 *)
(** The full claim: in CommonMark mode the parser is given the document, with its last
    line closed. *)
Definition C77_full : Prop := forall R (l : lib R) text, exists cite fed s,
  closes text fed /\ front l (for_mode 0) text (start l) = Ok (for_mode 0, false, cite, fed) s.
(** It fails: highlights are still rewritten. *)
Theorem C77_refuted : ~ C77_full.
Proof.
  intro H. destruct (H str demo (B "some text ==b==" ++ [NL])) as (cite & fed & s & C & E).
  apply (C26_unique _ (B "some text ==b==" ++ [NL])) in C; [|now constructor; left].
  vm_compute in E. injection E as _ F. rewrite <- C in F. vm_compute in F. discriminate.
Qed.
Print Assumptions C77_refuted.
(** Only four steps can change the text (inline tables, highlights, inserts, liquid
    tags); where these leave it alone, the claim holds. *)
Theorem C77_partial {R} (l : lib R) text :
  exists o' meta alds cite r t m, preprocessed l (for_mode 0) text o' meta alds cite r t m /\
    o' = for_mode 0 /\ meta = false /\ alds = false /\
    incl m [TInlineTables; THighlights; TInserts; TLiquid] /\
    ((forall x r t, In x [TInlineTables; THighlights; TInserts; TLiquid] ->
        fst (l_text l x (for_mode 0) r t) = None) -> t = text /\ m = []).
Proof.
  destruct (C73_order l (for_mode 0) text) as (o' & meta & alds & cite & r & t & m & P & _).
  exists o', meta, alds, cite, r, t, m. split; [assumption|]. exact (commonmark_pre l text o' meta alds cite r t m P).
Qed.
Print Assumptions C77_partial.
(** No extension of the parser is active, and of the steps on the HTML only these run. *)
Theorem C77_html_partial {R} (l : lib R) meta cite r x :
  hactive l (for_mode 0) meta cite r x = true ->
  extensions (for_mode 0) = [] /\
  In x [HLiquid; HLevels; HQuotes; HAuto; HImgCaptions; HFigP; HBlockP; HIds; HAbbr; HTagSpace; HCollapse;
        HPlugins; HScripts; HWrap; HCss; HBlank].
Proof.
  intro H. split; [reflexivity|]. destruct x; cbn; auto 20; exfalso; vm_compute in H; discriminate.
Qed.
Print Assumptions C77_html_partial.
Example C77_case :
  match convert demo (for_mode 0) (B "H~2~O") (start demo) with
  | Ok p s => content p s | Ub _ => None end = Some (B "<p>H~2~O" ++ [NL] ++ B "</p>").
Proof. vm_compute. reflexivity. Qed.
