(** Markdown output: C107-C114. *)
From Verif Require Import Base BaseL Dec M_Md S_Md L_Md L_Md2.

(** Abbreviations for the examples. *)
Ltac lns := repeat (apply Forall_cons; [apply one_line_lit; reflexivity|]); apply Forall_nil.
Definition txt (s : str) : node := Node (Text s) [].
Definition par (s : str) : node := Node Paragraph [txt s].

(** C107.  In full: the Markdown output says what the document says.  [forall mmd doc s,
    to_markdown mmd doc = Some s -> words s = words (says doc).]  Refuted: the content of a table
    (as of every block that ast_markdown.c does not know), inline HTML and the description of a
    picture are lost; with the dialect mmd a text before an unfinished marker is written twice, and
    what stands in a paragraph after a marker, or in an HTML block around one, is lost. *)
Theorem C107_refuted :
  to_markdown false (Node Document [Node Other [Node Other [Node Other [txt (B "cell")]]]]) = Some [NL] /\
  to_markdown false (Node Document [Node Paragraph [txt (B "a"); Node (Html (B "<br>")) []; txt (B "b")]]) = Some (B "ab" ++ [NL; NL; NL]) /\
  to_markdown false (Node Document [Node Paragraph [Node (Image None (Some (B "x.png")) None) [txt (B "A cat")]]]) = Some (B "![](x.png)" ++ [NL; NL; NL]) /\
  to_markdown true (Node Document [par (B "see {{TOC")]) = Some (B "see see {{TOC" ++ [NL; NL; NL]) /\
  to_markdown true (Node Document [par (B "{{TOC}} and more")]) = Some (B "{{TOC}}" ++ [NL; NL; NL]) /\
  to_markdown true (Node Document [Node (HtmlBlock (Some (B "<p>text</p><!--TOC-->"))) []]) = Some (B "{{TOC}}" ++ [NL; NL; NL]).
Proof. repeat split; vm_compute; reflexivity. Qed.
Print Assumptions C107_refuted.
(** It does for documents of the types that are known, with no inline HTML and no described
    picture; with mmd when there is no marker of a table of contents. *)
Theorem C107_partial : forall mmd doc s, block_tree doc -> mmd = false \/ markerless doc ->
  to_markdown mmd doc = Some s -> words s = words (says doc).
Proof.
  intros mmd doc s T P E. unfold to_markdown in E. destruct (kind_of doc); try discriminate E. injection E as <-.
  exact (words_blk mmd doc T P).
Qed.
Print Assumptions C107_partial.
Example C107_case :
  let doc := Node Document [Node (Heading 2) [txt (B "Title")];
    Node Quote [par (B "one"); Node (Lst true 3) [Node (Item 1) [par (B "two")]; Node (Item 1) [Node Paragraph [Node Emph [txt (B "three")]; Node Soft []; Node (Code (B "x")) []]]]];
    Node (CodeBlock (Some (B "c")) (Some (B "int y;" ++ [NL]))) []; Node Paragraph [Node (Link (Some (B "u")) (Some (B "t"))) [txt (B "four")]]] in
  block_tree doc /\
  to_markdown false doc = Some (B "## Title" ++ [NL; NL; NL] ++ B "> one" ++ [NL] ++ B "> 3. two" ++ [NL; NL] ++ B "4. *three*" ++ [NL] ++ B "`x`" ++ [NL; NL; NL; NL]
    ++ B "```c" ++ [NL] ++ B "int y;" ++ [NL; NL] ++ B "```" ++ [NL; NL; NL] ++ B "[four](u " ++ [DQ] ++ B "t" ++ [DQ] ++ B ")" ++ [NL; NL; NL]) /\
  words (says doc) = B "Titleonetwothreexcintyfourut".
Proof. cbv zeta. split; [repeat split|split; vm_compute; reflexivity]. Qed.
Example C107_case_mmd : markerless (Node Document [par (B "no {{marker}}")]) /\
  to_markdown true (Node Document [par (B "no {{marker}}")]) = Some (B "no {{marker}}" ++ [NL; NL; NL]).
Proof.
  split; [|vm_compute; reflexivity]. cbn. repeat split. intros a b E.
  assert (H : strstr (B "{{TOC") (B "no {{marker}}") = None) by reflexivity. exact (strstr_none _ _ H a b E).
Qed.

(** C108.  In full: a text is read back as the text, and nothing in it can begin markup.
    [forall mmd s, s has no marker of a table of contents when mmd -> read (inl mmd (txt s)) = s /\
    safe (inl mmd (txt s)).]  Refuted: < and & are not protected. *)
Theorem C108_refuted : inl false (txt (B "a <b> &copy;")) = B "a <b> &copy;" /\ ~ safe (inl false (txt (B "a <b> &copy;"))).
Proof.
  split; [vm_compute; reflexivity|]. intros H. assert (F : active "<"%char = false); [|discriminate F].
  apply H. vm_compute. auto.
Qed.
Print Assumptions C108_refuted.
(** Reading always gives the text back, and the text is safe exactly when it has neither. *)
Theorem C108_partial : forall mmd s, mmd = false \/ (forall a b, s <> a ++ B "{{TOC" ++ b) ->
  read (inl mmd (txt s)) = s /\ (safe (inl mmd (txt s)) <-> ~ In "<"%char s /\ ~ In "&"%char s).
Proof. intros mmd s H. unfold txt. rewrite text_text by exact H. split; [apply read_escape|apply safe_escape]. Qed.
Print Assumptions C108_partial.
Example C108_case : inl false (txt (B "1. *a* [b](c)")) = B "1\. \*a\* \[b\]\(c\)" /\ read (B "1\. \*a\* \[b\]\(c\)") = B "1. *a* [b](c)" /\
  ~ In "<"%char (B "1. *a* [b](c)") /\ ~ In "&"%char (B "1. *a* [b](c)").
Proof. split; [vm_compute; reflexivity|]. split; [vm_compute; reflexivity|]. split; cbn; intuition discriminate. Qed.

(** C109.  In full: a code span is read back as it was.  [forall mmd s r, s is not empty and what
    follows does not begin with a backtick -> read_code (inl mmd (Node (Code s) []) ++ r) = Some (s, r).]
    Refuted: always one backtick is written, and no space inside. *)
Theorem C109_refuted :
  read_code (inl false (Node (Code (B "a ` b")) [])) = Some (B "a ", B " b`") /\
  read_code (inl false (Node (Code (B "`x")) []) ++ B " y") = None /\
  read_code (inl false (Node (Code (B " a ")) [])) = Some (B "a", []).
Proof. repeat split; vm_compute; reflexivity. Qed.
Print Assumptions C109_refuted.
Theorem C109_partial : forall mmd s r, s <> [] -> ~ In BT s -> ~ In NL s -> (forall x, s <> SP :: x ++ [SP]) -> (forall y, r <> BT :: y) ->
  read_code (inl mmd (Node (Code s) []) ++ r) = Some (s, r).
Proof. intros. rewrite code_text, <- !app_assoc. apply read_code_span; assumption. Qed.
Print Assumptions C109_partial.
Example C109_case : inl false (Node (Code (B "a*b ")) []) = B "`a*b `" /\ read_code (B "`a*b ` c") = Some (B "a*b ", B " c") /\
  ~ In BT (B "a*b ") /\ ~ In NL (B "a*b ") /\ (forall x, B "a*b " <> SP :: x ++ [SP]).
Proof. split; [vm_compute; reflexivity|]. split; [vm_compute; reflexivity|]. split; [cbn; intuition discriminate|]. split; [cbn; intuition discriminate|]. intros x E. discriminate E. Qed.

(** C110.  In full: a code block is read back as it was.  [forall mmd info s, no backtick and no line
    end in info -> fenced (blk mmd (Node (CodeBlock (Some info) (Some s)) [])) info s [NL].]  Refuted for
    every code block: what is read has one more line at least when it is whole. *)
Theorem C110_refuted : forall mmd info s, ~ fenced (blk mmd (Node (CodeBlock (Some info) (Some s)) [])) info s [NL].
Proof.
  intros mmd info s (ls & e & E & C & _ & _ & _ & _ & Ce). rewrite blk_eq in E. cbn [opt] in E.
  change (B "```") with (repeat BT 3) in E. apply app_inv_head in E. apply app_inv_head in E.
  rewrite <- C in E. cbn [app] in E. injection E as E. apply app_inv_head in E.
  destruct Ce as (i & n & j & -> & _ & N). destruct i as [|i]; [|discriminate E].
  destruct n as [|n]; [lia|discriminate E].
Qed.
Print Assumptions C110_refuted.
(** What is read is the code and one line end, exactly when no line of the code is a closing
    fence. *)
Theorem C110_partial : forall mmd info s ls, ~ In BT info -> one_line info -> s ++ [NL] = lines ls -> Forall one_line ls ->
  (fenced (blk mmd (Node (CodeBlock (Some info) (Some s)) [])) info (s ++ [NL]) [NL] <-> Forall (fun l => ~ closing l) ls).
Proof.
  intros mmd info s ls T I E O. split.
  - intros (ls' & e & _ & C & _ & _ & F & _). rewrite E in C. apply lines_inj in C; [|exact O|].
    + subst ls'. apply Forall_impl with (2 := F). intros l [_ H]. exact H.
    + apply Forall_impl with (2 := F). intros l [H _]. exact H.
  - intros F. apply (blk_fenced _ _ _ _ ls T I E). apply Forall_forall. intros l L.
    split; [exact (proj1 (Forall_forall _ _) O l L)|exact (proj1 (Forall_forall _ _) F l L)].
Qed.
Print Assumptions C110_partial.
(** A block is read in one way only. *)
Theorem C110_read_once : forall s i c r i' c' r', fenced s i c r -> fenced s i' c' r' -> i = i' /\ c = c' /\ r = r'.
Proof. exact fenced_uniq. Qed.
Print Assumptions C110_read_once.
Example C110_case : (B "x = 1" ++ [NL]) ++ [NL] = lines [B "x = 1"; []] /\ Forall one_line [B "x = 1"; []] /\ Forall (fun l => ~ closing l) [B "x = 1"; []] /\
  blk false (Node (CodeBlock (Some (B "py")) (Some (B "x = 1" ++ [NL]))) []) = B "```py" ++ [NL] ++ B "x = 1" ++ [NL; NL] ++ B "```" ++ [NL; NL].
Proof.
  split; [reflexivity|]. split; [lns|]. split; [|vm_compute; reflexivity].
  constructor; [|constructor; [|constructor]]; intros (i & n & j & E & _ & N); destruct i; try discriminate E; destruct n; try discriminate E; lia.
Qed.
Example C110_case_cut : fenced (blk false (Node (CodeBlock (Some []) (Some (B "```" ++ [NL]))) [])) [] [] ([NL] ++ B "```" ++ [NL; NL]).
Proof. exists [], (B "```"). split; [vm_compute; reflexivity|]. repeat split; auto using one_line_ticks, closing_ticks; intros []. Qed.

(** C111.  In full: every line of a quotation is marked as quoted.  [forall mmd ch, all_quoted
    (blk mmd (Node Quote ch)).]  Refuted: by a hard line break, by the second item of a list. *)
Theorem C111_refuted :
  (blk false (Node Quote [Node Paragraph [txt (B "a"); Node Hard []; txt (B "b")]]) = B "> a  " ++ [NL] ++ B "b" ++ [NL; NL] /\
   ~ all_quoted (B "> a  " ++ [NL] ++ B "b" ++ [NL; NL])) /\
  (blk false (Node Quote [Node (Lst false 1) [Node (Item 1) [par (B "a")]; Node (Item 1) [par (B "b")]]]) = B "> - a" ++ [NL; NL] ++ B "- b" ++ [NL; NL; NL] /\
   ~ all_quoted (B "> - a" ++ [NL; NL] ++ B "- b" ++ [NL; NL; NL])).
Proof.
  split; (split; [vm_compute; reflexivity|]); intros H.
  - destruct (H [B "> a  "; B "b"; []] []) as [F _]; [reflexivity|lns|intros []|].
    inversion_clear F as [|? ? _ F1]. inversion_clear F1 as [|? ? [Q|[r Q]] _]; discriminate Q.
  - destruct (H [B "> - a"; []; B "- b"; []; []] []) as [F _]; [reflexivity|lns|intros []|].
    inversion_clear F as [|? ? _ F1]. inversion_clear F1 as [|? ? _ F2]. inversion_clear F2 as [|? ? [Q|[r Q]] _]; discriminate Q.
Qed.
Print Assumptions C111_refuted.
(** It is in a quotation of paragraphs with soft line breaks only, and not within emphasis. *)
Theorem C111_partial : forall mmd ps, Forall (Forall (fun c => kind_of c = Soft \/ no_break c)) ps ->
  all_quoted (blk mmd (Node Quote (map (Node Paragraph) ps))).
Proof. exact quote_quoted. Qed.
Print Assumptions C111_partial.
Example C111_case : blk false (Node Quote (map (Node Paragraph) [[txt (B "a"); Node Soft []; Node Emph [txt (B "b")]]; [txt (B "c")]])) =
  B "> a" ++ [NL] ++ B "> *b*" ++ [NL] ++ B "> c" ++ [NL; NL] /\ no_break (Node Emph [txt (B "b")]).
Proof. split; [vm_compute; reflexivity|]. split; [apply one_line_lit; reflexivity|exact I]. Qed.

(** C112.  In full: what stands in a list item stays in it: its lines after the first are indented,
    and the items are marked or numbered in order.  [forall mmd ordered start ch, indented_rest
    (blk mmd (Node (Lst ordered start) [Node (Item 1) ch])).]  Refuted: nothing is indented; a second paragraph
    falls out of the item, an inner list becomes part of the outer one. *)
Theorem C112_refuted :
  ~ indented_rest (blk false (Node (Lst false 1) [Node (Item 1) [par (B "a"); par (B "b")]])) /\
  blk false (Node (Lst false 1) [Node (Item 1) [par (B "a"); Node (Lst false 1) [Node (Item 1) [par (B "b")]]]]) =
    bulleted [B "a"; B "b"] ++ [NL; NL].
Proof.
  split; [|vm_compute; reflexivity]. intros H.
  specialize (H (B "- a") [[]; B "b"; []; []] []). assert (E : Forall (fun x : str => x = [] \/ exists r, x = SP :: r) ([[]; B "b"; []; []] ++ [[]])).
  { apply H; [vm_compute; reflexivity|apply one_line_lit; reflexivity|lns|intros []]. }
  inversion_clear E as [|? ? _ E1]. inversion_clear E1 as [|? ? [Q|[r Q]] _]; discriminate Q.
Qed.
Print Assumptions C112_refuted.
(** Items of one paragraph each are numbered from the number of the list on, or marked. *)
Theorem C112_partial : forall mmd ps, Forall (fun p => mmd = false \/ Forall markerless p) ps ->
  (forall start, blk mmd (Node (Lst true start) (map item_of ps)) = numbered start (map (inls mmd) ps) ++ [NL]) /\
  (forall start, blk mmd (Node (Lst false start) (map item_of ps)) = bulleted (map (inls mmd) ps) ++ [NL]).
Proof. intros mmd ps F. split; intros start; [exact (list_ordered mmd start ps F)|exact (list_bullets mmd start ps F)]. Qed.
Print Assumptions C112_partial.
Example C112_case : blk false (Node (Lst true 9) (map item_of [[txt (B "nine")]; [txt (B "ten")]])) =
  B "9. nine" ++ [NL; NL] ++ B "10. ten" ++ [NL; NL; NL].
Proof. vm_compute. reflexivity. Qed.

(** C113.  In full: a link is read back with its address and title, a picture as well.
    [forall mmd u t ch, exists x, inl mmd (Node (Link (Some u) t) ch) = B "[" ++ x ++ B "](" ++ y /\
    read_target y = Some (u, opt t, []).]  Refuted: a space or a parenthesis in the address, a quotation mark
    in the title. *)
Theorem C113_refuted :
  (exists y, inl false (Node (Link (Some (B "a b")) None) []) = B "[](" ++ y /\ read_target y = None) /\
  (exists y, inl false (Node (Link (Some (B "a)b")) None) []) = B "[](" ++ y /\ read_target y = Some (B "a", [], B "b)")) /\
  (exists y, inl false (Node (Link (Some (B "a")) (Some ([DQ] ++ B "x" ++ [DQ]))) []) = B "[](" ++ y /\ read_target y = None).
Proof.
  split; [|split].
  - exists (B "a b)"). split; vm_compute; reflexivity.
  - exists (B "a)b)"). split; vm_compute; reflexivity.
  - exists (B "a " ++ [DQ; DQ] ++ B "x" ++ [DQ; DQ] ++ B ")"). split; vm_compute; reflexivity.
Qed.
Print Assumptions C113_refuted.
Theorem C113_partial : forall mmd u t ch r, address_ok u -> ~ In DQ (opt t) -> ~ In BS (opt t) ->
  (exists x y, inl mmd (Node (Link (Some u) t) ch) = B "[" ++ x ++ B "](" ++ y /\ read_target (y ++ r) = Some (u, opt t, r)) /\
  (exists x y, inl mmd (Node (Image None (Some u) t) ch) = B "![" ++ x ++ B "](" ++ y /\ read_target (y ++ r) = Some (u, opt t, r)).
Proof.
  intros mmd u t ch r U T1 T2. split.
  - exists (concat (map (shown mmd) ch)), (target (Some u) t ++ B ")"). split; [apply inl_eq|].
    rewrite <- app_assoc. apply read_target_ok; assumption.
  - exists [], (target (Some u) t ++ B ")"). split; [apply inl_eq|].
    rewrite <- app_assoc. apply read_target_ok; assumption.
Qed.
Print Assumptions C113_partial.
Example C113_case : inl false (Node (Link (Some (B "http://x.y/z")) (Some (B "a title"))) [txt (B "text")]) = B "[text](http://x.y/z " ++ [DQ] ++ B "a title" ++ [DQ] ++ B ")" /\
  address_ok (B "http://x.y/z") /\ ~ In DQ (B "a title") /\ ~ In BS (B "a title").
Proof. split; [vm_compute; reflexivity|]. split; [repeat constructor; discriminate|]. split; cbn; intuition discriminate. Qed.

(** C114.  In full: a heading is read back with its level and the whole of its content.
    [forall mmd level ch, 1 <= level <= 6 -> read_heading (blk mmd (Node (Heading level) ch)) = Some (level, inls mmd ch, [NL; NL]).]
    Refuted: a heading can have several lines (when it is underlined), and only the first is read. *)
Theorem C114_refuted :
  read_heading (blk false (Node (Heading 1) [txt (B "a"); Node Soft []; txt (B "b")])) = Some (1, B "a", [NL] ++ B "b" ++ [NL; NL]).
Proof. vm_compute. reflexivity. Qed.
Print Assumptions C114_refuted.
Theorem C114_partial : forall mmd level ch, 1 <= level <= 6 -> Forall no_break ch ->
  read_heading (blk mmd (Node (Heading level) ch)) = Some (level, inls mmd ch, [NL; NL]) /\
  blk mmd (Node Rule []) = B "---" ++ [NL; NL].
Proof. intros mmd level ch L N. split; [exact (heading_read mmd level ch L N)|reflexivity]. Qed.
Print Assumptions C114_partial.
Example C114_case : blk false (Node (Heading 3) [txt (B "A b")]) = B "### A b" ++ [NL; NL] /\ no_break (txt (B "A b")).
Proof. split; [vm_compute; reflexivity|]. apply one_line_lit. reflexivity. Qed.

(** With the dialect mmd a marker is written without its range, the text around it as a text. *)
Theorem C107_marker : forall a m b, ~ In "{"%char a -> ~ In "}"%char m -> exists x y,
  inl true (txt (a ++ B "{{TOC" ++ m ++ B "}}" ++ b)) = x ++ B "{{TOC}}" ++ y /\ read x = a /\ read y = b.
Proof.
  intros a m b A M. exists (escape true a), (escape true b). split; [exact (toc_text a m b [] A M)|].
  split; apply read_escape.
Qed.
Print Assumptions C107_marker.
Example C107_marker_case : inl true (txt (B "see {{TOC:2-3}} *")) = B "see {{TOC}} \*".
Proof. vm_compute. reflexivity. Qed.
