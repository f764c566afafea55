(** Properties C121 to C125: man pages in HTML. *)
From Verif Require Import Base BaseL Dec M_Md M_Man M_ManHtml S_ManHtml L_ManHtml L_ManHtml2.

Definition text (s : str) : node := Node (Text s) [].
Definition h1 (s : str) : node := Node (Heading 1) [text s].
Definition para (s : str) : node := Node Paragraph [text s].
Definition raw (s : str) : node := Node (HtmlBlock (Some s)) [].

(** C121.  In full: the page is complete and its tags are nested, whatever the document.
    [forall standalone css title sheets ch, complete (man_html standalone css title sheets ch) /\ nested [] (tags_of (man_html standalone css title sheets ch)).]
    Refuted: a definition list in HTML is copied as it is. *)
Theorem C121_refuted : let s := man_html false [] None [] [raw (B "<dl>" ++ [NL] ++ B "<dt>a")] in
  complete s /\ ~ nested [] (tags_of s).
Proof. split; [reflexivity|]. vm_compute. discriminate. Qed.
Print Assumptions C121_refuted.
Theorem C121_partial : forall standalone css title sheets ch, ~ In "<"%char css -> ~ In "&"%char css -> Forall no_dl ch ->
  complete (man_html standalone css title sheets ch) /\ nested [] (tags_of (man_html standalone css title sheets ch)).
Proof.
  intros standalone css title sheets ch N1 N2 F. destruct (fine_reads _ (page_fine css title sheets ch N1 N2 F standalone)) as (C & N & _). auto.
Qed.
Print Assumptions C121_partial.
Example C121_case : tags_of (man_html false [] None [] [h1 (B "a <b>"); Node Quote [para (B "x & y")]]) =
  [B "div class=" ++ [DQ] ++ B "man-section" ++ [DQ]; B "h2 id=" ++ [DQ] ++ B "a-b" ++ [DQ]; B "/h2"; B "/div"; B "blockquote"; B "p"; B "/p"; B "/blockquote"] /\
  Forall no_dl [h1 (B "a <b>"); Node Quote [para (B "x & y")]].
Proof. split; [vm_compute; reflexivity|]. repeat constructor. Qed.

(** C122.  In full: the page shows the text of the document.
    [forall ch, visible (text_of (man_html false [] None [] ch)) = visible (said (Node Document ch)).]  Refuted: HTML is dropped, as are the texts
    of blocks of other types (the cells of a table). *)
Theorem C122_refuted :
  man_html false [] None [] [raw (B "<p>lost</p>")] = [] /\
  man_html false [] None [] [Node Other [Node Other [text (B "cell")]]] = [] /\
  text_of (man_html false [] None [] [Node Paragraph [Node (Html (B "<b>")) []; text (B "x")]]) = B "x" ++ [NL].
Proof. vm_compute. auto. Qed.
Print Assumptions C122_refuted.
Theorem C122_partial : forall ch, page_block (Node Document ch) ->
  visible (text_of (man_html false [] None [] ch)) = visible (said (Node Document ch)).
Proof.
  intros ch T. destruct (block_bpart _ T false) as (t & (e & R & S & _ & _) & V). unfold man_html. cbn [negb]. unfold text_of. rewrite R. cbn [snd].
  rewrite S. exact V.
Qed.
Print Assumptions C122_partial.
(** In a line, the text is shown exactly, spaces included. *)
Theorem C122_inline : forall n, page_inline n -> complete (inline_html n) /\ text_of (inline_html n) = said n.
Proof. intros n T. destruct (inline_part n T) as (e & R & S & _ & _). unfold complete, text_of. rewrite R. cbn [fst snd]. auto. Qed.
Print Assumptions C122_inline.
Example C122_case : page_block (Node Document [h1 (B "a <b>"); Node Paragraph [text (B "x & "); Node (Code (B "'q'")) []; Node Soft []; text (B "y")]]) /\
  text_of (inlines_html [text (B "x & "); Node (Code (B "'q'")) []; Node Soft []; text (B "y")]) = B "x & 'q' y".
Proof. split; [cbn; auto 10|vm_compute; reflexivity]. Qed.

(** C123.  The links of the page are those of the document, in order: the addresses are read back from the attributes. *)
Theorem C123 : forall ch, page_block (Node Document ch) ->
  links (tags_of (man_html false [] None [] ch)) = addresses (Node Document ch).
Proof.
  intros ch T. destruct (block_bpart _ T false) as (t & (e & R & _ & U & _) & _). unfold man_html. cbn [negb]. unfold tags_of. rewrite R. exact U.
Qed.
Print Assumptions C123.
Example C123_case : addresses (Node Document [Node Paragraph [Node (Link (Some (B "a?b&c=" ++ [DQ] ++ B ">")) None) [text (B "x")]]]) = [B "a?b&c=" ++ [DQ] ++ B ">"] /\
  man_html false [] None [] [Node Paragraph [Node (Link (Some (B "a?b&c=" ++ [DQ] ++ B ">")) None) [text (B "x")]]] = B "<p><a href=" ++ [DQ] ++ B "a?b&amp;c=&quot;&gt;" ++ [DQ] ++ B ">x</a></p>" ++ [NL].
Proof. vm_compute. auto. Qed.

(** C124.  In full: the links of the navigation lead to the headings of level one, every heading has one, with its text.
    [forall ch, leads (tags_of (nav (sections max_sections ch))) is a subsequence of ids (tags_of (body)), and so on.]
    Refuted: ids are cut in the navigation at 71 bytes but not in the body; after 48 sections the rest is missing; two headings can have the same id;
    labels are cut inside of a character. *)
Definition long : str := repeat "a"%char 72.
Definition several : list node := map (fun n => h1 (B "s" ++ dec n)) (seq 0 49).
Theorem C124_refuted :
  (leads (tags_of (nav (sections max_sections [h1 long]))) = [repeat "a"%char 71] /\ ids (tags_of (block_html false (Node Document [h1 long]))) = [long]) /\
  (length (ids (tags_of (block_html false (Node Document several)))) = 49 /\ length (leads (tags_of (nav (sections max_sections several)))) = 48) /\
  ids (tags_of (block_html false (Node Document [h1 (B "C++"); h1 (B "C#")]))) = [B "C"; B "C"] /\
  (let s := repeat "x"%char 70 ++ ["195"; "169"]%char in text_of (nav (sections max_sections [h1 s])) = [NL] ++ repeat "x"%char 70 ++ ["195"%char; NL; NL]).
Proof. vm_compute. auto 10. Qed.
Print Assumptions C124_refuted.
Theorem C124_partial : forall ch, Forall no_dl ch -> Forall (fun h => length (section_id h) <= 71) (top_headings ch) ->
  subseq (leads (tags_of (nav (sections max_sections ch)))) (ids (tags_of (block_html false (Node Document ch)))) /\
  (length (top_headings ch) <= 48 -> leads (tags_of (nav (sections max_sections ch))) = filter nonempty (map section_id (top_headings ch))) /\
  (length (top_headings ch) <= 48 -> Forall (fun h => length (plain_text h) <= 71) (top_headings ch) ->
     visible (text_of (nav (sections max_sections ch))) = visible (concat (map plain_text (filter (fun h => nonempty (section_id h)) (top_headings ch))))).
Proof.
  intros ch F L. destruct (nav_ok max_sections ch) as (_ & E & V). rewrite E, V, (links_short _ _ L). split; [|split].
  - apply subseq_filter, subseq_firstn. destruct (body_ids ch F) as [_ H]. rewrite block_html_eq, blocks_false. exact H.
  - intros N. rewrite firstn_all2; [reflexivity|]. rewrite map_length. exact N.
  - intros N P. f_equal. f_equal. rewrite firstn_all2 by (rewrite map_length; exact N). apply labels_short.
    apply Forall_forall. intros h J. rewrite Forall_forall in L, P. split; [exact (L h J)|exact (P h J)].
Qed.
Print Assumptions C124_partial.
Theorem C124_ids : forall h, forallb (fun c => isalnum c || ceq c "-"%char) (section_id h) = true.
Proof. exact section_id_ok. Qed.
Print Assumptions C124_ids.
Example C124_case : leads (tags_of (nav (sections max_sections [h1 (B "NAME"); para (B "x"); h1 (B "SEE ALSO")]))) = [B "NAME"; B "SEE-ALSO"] /\
  ids (tags_of (block_html false (Node Document [h1 (B "NAME"); para (B "x"); h1 (B "SEE ALSO")]))) = [B "NAME"; B "SEE-ALSO"].
Proof. vm_compute. auto. Qed.

(** C125.  In full: title and headline of the page are the command and the description of the section NAME, words separated by one space.
    Refuted: a line end in that paragraph is dropped, so that words run together and the dash is not found. *)
Theorem C125_refuted :
  headline None [h1 (B "NAME"); Node Paragraph [text (B "ls -"); Node Soft []; text (B "list files")]] = (B "ls -list files", B "manual page") /\
  headline None [h1 (B "NAME"); Node Paragraph [text (B "ls - list"); Node Soft []; text (B "files")]] = (B "ls", B "listfiles").
Proof. vm_compute. auto. Qed.
Print Assumptions C125_refuted.
Theorem C125_partial : forall css title sheets pre h mid p post c d wc wd,
  Forall (fun n => forall ch, n = Node (Heading 1) ch -> plain_text n <> B "NAME") pre ->
  Forall (fun n => match kind_of n with Paragraph | Heading _ => False | _ => True end) mid ->
  plain_text (Node (Heading 1) h) = B "NAME" ->
  plain_text (Node Paragraph p) = c ++ B " - " ++ d -> (forall a b, c ++ B " - " ++ d = a ++ B " - " ++ b -> length c <= length a) ->
  spaced c wc -> spaced d wd -> (opt title = [] \/ ~ In "("%char (opt title) \/ ~ In ")"%char (opt title)) ->
  exists a x b e,
    man_html true css title sheets (pre ++ Node (Heading 1) h :: mid ++ Node Paragraph p :: post) =
      a ++ B "<title>" ++ x ++ B "</title>" ++ b ++ B "<h1 class=" ++ [DQ] ++ B "man-headline" ++ [DQ] ++ B ">" ++ x ++ B "</h1>" ++ e /\
    text_of x = joined wc ++ B " " ++ ["226"; "128"; "148"]%char ++ B " " ++ joined wd.
Proof.
  intros css title sheets pre h mid p post c d wc wd F1 F2 E1 E2 M C D T.
  assert (N : plain_text (Node Paragraph p) <> []) by (rewrite E2; destruct c; discriminate).
  pose proof (name_section_ok pre h mid p post F1 F2 E1 N) as K. rewrite E2 in K.
  exact (page_title css title sheets _ _ _ (headline_ok title _ _ c d wc wd K eq_refl M C D T)).
Qed.
Print Assumptions C125_partial.
Theorem C125_words : forall s l, spaced s l -> normalize s = joined l.
Proof. exact normalize_ok. Qed.
Print Assumptions C125_words.
Example C125_case : headline None [h1 (B "NAME"); para (B " git   log  - show  logs ")] = (B "git log", B "show logs") /\
  spaced (B " git   log ") [B "git"; B "log"] /\ joined [B "git"; B "log"] = B "git log".
Proof.
  split; [vm_compute; reflexivity|]. split; [|reflexivity].
  apply (spaced_word (B " ") (B "git") (B "   log ")); [reflexivity|discriminate|reflexivity|intros c r [= <- _]; reflexivity|].
  apply (spaced_word (B "   ") (B "log") (B " ")); [reflexivity|discriminate|reflexivity|intros c r [= <- _]; reflexivity|].
  apply spaced_end. reflexivity.
Qed.
