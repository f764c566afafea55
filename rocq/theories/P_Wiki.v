(** Properties C132 to C137: wiki links. *)
From Verif Require Import Base BaseL M_Md M_Ids M_Wiki S_Wiki L_Wiki.

Definition plain (ext : option str) (m : space_mode) : config := Config [] ext m false.
Definition cleaned (m : space_mode) : config := Config (B "/wiki/") (Some (B "html")) m true.
(** The name of a page in the address: with its blanks as asked for, or cleaned. *)
Definition named (cfg : config) (page name : str) : Prop := if sanitize cfg then clean (mode_of cfg) name else name = respaced (mode_of cfg) page.

(** C132.  The links of a text are found, the leftmost first and each up to the next ]], and become links with the address and the text they
    say; all other text and all other nodes stay as they are. *)
Theorem C132 : forall cfg n, leaves n -> linked (link_to cfg (named cfg)) n (process cfg n).
Proof.
  intros cfg n Lv. apply process_linked; [|exact Lv]. intros x. unfold link_node. pose proof (parse_says x) as H. destruct (parse_wiki x) as [[page display] section].
  exists page, section, display, (page_to_url cfg page section), (page_part cfg page). split; [exact H|]. split; [|split; [apply url_address|reflexivity]].
  unfold named. destruct (sanitize cfg) eqn:S; [exact (page_clean cfg page S)|exact (respaced_eq cfg page S)].
Qed.
Print Assumptions C132.
(** What is found is determined by the text, and so are the parts of a link. *)
Theorem C132_unique : forall s p p', reads s p -> reads s p' -> p = p'.
Proof. exact reads_uniq. Qed.
Print Assumptions C132_unique.
Theorem C132_says_unique : forall content p s d p' s' d', says content p s d -> says content p' s' d' -> p = p' /\ s = s' /\ d = d'.
Proof. exact says_uniq. Qed.
Print Assumptions C132_says_unique.
Example C132_case : let cfg := plain (Some (B "html")) Dash in
  process cfg (T (B "a [[]] [[Home Page#Top|home]]]b [[x")) =
    [T (B "a "); T (B "[[]]"); T (B " "); Node (Link (Some (B "Home-Page.html#Top")) None) [T (B "home")]; T (B "]b "); T (B "[[x")] /\ leaves (T (B "a [[]] [[Home Page#Top|home]]]b [[x")).
Proof. split; [vm_compute; reflexivity|constructor]. Qed.

(** C133.  In full: every wiki link can be seen.
    [forall cfg content, content <> [] -> exists url c t, link_node cfg content = Node (Link (Some url) None) [T (c :: t)].]
    Refuted: a link to a section of the same page has no text. *)
Theorem C133_refuted : process (plain None Dash) (T (B "see [[#Top]]")) = [T (B "see "); Node (Link (Some (B "#Top")) None) [T []]].
Proof. vm_compute. reflexivity. Qed.
Print Assumptions C133_refuted.
Theorem C133_partial : forall cfg content page section display, says content page section display ->
  (match display with Some d => d <> [] | None => page <> [] end) <->
  exists url c t, link_node cfg content = Node (Link (Some url) None) [T (c :: t)].
Proof.
  intros cfg content page section display H. pose proof (parse_says content) as K. unfold link_node. destruct (parse_wiki content) as [[p d] s].
  destruct (says_uniq _ _ _ _ _ _ _ H K) as (<- & <- & <-). unfold T, text_node. destruct display as [[|c t]|]; [..|destruct page as [|c t]].
  - split; [intros N; contradiction|intros (u & c & t & E); discriminate E].
  - split; [intros _; eexists; exists c, t; reflexivity|discriminate].
  - split; [intros N; contradiction|intros (u & c & t & E); discriminate E].
  - split; [intros _; eexists; exists c, t; reflexivity|discriminate].
Qed.
Print Assumptions C133_partial.
Example C133_case : says (B "Home#Top") (B "Home") (Some (B "Top")) None.
Proof. split; [reflexivity|]. split; [|split]; [intros J; repeat destruct J as [J|J]; try discriminate J; exact J..|]. intros s [= <-] J. repeat destruct J as [J|J]; try discriminate J. exact J. Qed.

(** C134.  A cleaned name has only lower-case letters, digits, points, slashes and single separators within; cleaning it again changes nothing;
    names that differ only in case, accents and quotes have the same address. *)
Theorem C134 : forall cfg page, sanitize cfg = true -> clean (mode_of cfg) (page_part cfg page).
Proof. exact page_clean. Qed.
Print Assumptions C134.
Theorem C134_stable : forall cfg page, sanitize cfg = true -> page_part cfg (page_part cfg page) = page_part cfg page.
Proof. exact page_idem. Qed.
Print Assumptions C134_stable.
Theorem C134_spelling : forall cfg p q t, sanitize cfg = true -> spelled p t -> spelled q t -> page_part cfg p = page_part cfg q.
Proof. intros cfg p q t S H1 H2. unfold page_part. rewrite S, (spelled_san _ _ _ H1), (spelled_san _ _ _ H2). reflexivity. Qed.
Print Assumptions C134_spelling.
(** No letter or digit of the name is lost. *)
Theorem C134_letters : forall cfg p t, sanitize cfg = true -> spelled p t -> filter isalnum (page_part cfg p) = filter isalnum t.
Proof. exact page_letters. Qed.
Print Assumptions C134_letters.
Example C134_case : page_part (cleaned Dash) (B "  The " ++ utf8_2 201 ++ B "cole's  (New) --" ++ utf8_2 198) = B "the-ecoles-new-ae" /\
  spelled (B "The " ++ utf8_2 201 ++ B "cole" ++ utf8_2 769) (B "the ecole").
Proof.
  split; [vm_compute; reflexivity|]. change (B "the ecole") with (map tolower (B "The ") ++ "e"%char :: map tolower (B "cole")). cbn [B list_ascii_of_string app map].
  do 4 (apply Spelled_ascii; [vm_compute; lia|]). apply Spelled_accent.
  { exists [(200, 203); (232, 235)], 200, 203. split; [cbn; auto|]. split; [left; reflexivity|lia]. }
  do 4 (apply Spelled_ascii; [vm_compute; lia|]). rewrite <- (app_nil_r (utf8_2 769)). apply Spelled_mark; [lia|constructor].
Qed.

(** C135.  The address fits into the memory allocated for it, with its terminator. *)
Theorem C135 : forall cfg page section, length (page_to_url cfg page section) + 1 <= url_len cfg page section.
Proof. exact url_fits. Qed.
Print Assumptions C135.
Example C135_case : length (page_to_url (cleaned Space) (B "a b") (Some (B "c"))) = 16 /\ url_len (cleaned Space) (B "a b") (Some (B "c")) = 25.
Proof. vm_compute. auto. Qed.

(** C136.  In full: no link is made within a link.
    [forall cfg n, leaves n -> flat_links false n -> Forall (flat_links false) (process cfg n).]  Refuted: the texts of links are processed, too. *)
Theorem C136_refuted : let n := Node (Link (Some (B "u")) None) [T (B "[[x]]")] in
  leaves n /\ flat_links false n /\ process (plain None Dash) n = [Node (Link (Some (B "u")) None) [Node (Link (Some (B "x")) None) [T (B "x")]]].
Proof. split; [repeat constructor|]. split; [cbn; auto|vm_compute; reflexivity]. Qed.
Print Assumptions C136_refuted.
Theorem C136_partial : forall cfg n, leaves n -> flat_links false n -> quiet_links false n -> Forall (flat_links false) (process cfg n).
Proof. intros cfg n. apply process_flat. Qed.
Print Assumptions C136_partial.
Example C136_case : let n := Node Paragraph [T (B "[[x]]"); Node (Link (Some (B "u")) None) [T (B "[x]")]] in leaves n /\ flat_links false n /\ quiet_links false n.
Proof.
  split; [repeat constructor|]. split; [cbn; auto|]. cbn. split; [intros H; discriminate H|]. split; [|exact I]. split; [|exact I]. intros _ a b E.
  destruct a as [|a0 [|a1 [|a2 [|a3 a]]]]; discriminate E.
Qed.

(** C137.  In full: a link to a section leads to the heading with that title, of which the id is made as headings are given ids.
    [forall cfg page title names id, header_id names Gfm title = Some (id, false) -> exists a, page_to_url cfg page (Some title) = a ++ B "#" ++ id.]
    Refuted: the section is put into the address as it is. *)
Theorem C137_refuted : header_id (fun _ => None) Gfm (B "My Section") = Some (B "my-section", false) /\
  page_to_url (cleaned Dash) (B "P") (Some (B "My Section")) = B "/wiki/p.html#My Section".
Proof. vm_compute. auto. Qed.
Print Assumptions C137_refuted.
Theorem C137_partial : forall cfg page title names id, header_id names Gfm title = Some (id, false) -> ~ In "#"%char (base_path cfg ++ page_part cfg page ++ ext_part cfg) ->
  ~ In "#"%char id -> (id = title <-> exists a, page_to_url cfg page (Some title) = a ++ B "#" ++ id /\ ~ In "#"%char a).
Proof.
  intros cfg page title names id _ N1 N2. split.
  - intros ->. exists (base_path cfg ++ page_part cfg page ++ ext_part cfg). split; [|exact N1]. unfold page_to_url. rewrite <- !app_assoc. reflexivity.
  - intros (a & E & Na). assert (E2 : (base_path cfg ++ page_part cfg page ++ ext_part cfg) ++ "#"%char :: title = a ++ "#"%char :: id) by (rewrite <- !app_assoc; exact E).
    apply wcut in E2 as [_ E2]; [symmetry; exact E2|exact N1|exact Na].
Qed.
Print Assumptions C137_partial.
Example C137_case : header_id (fun _ => None) Gfm (B "top") = Some (B "top", false) /\ page_to_url (cleaned Dash) (B "P") (Some (B "top")) = B "/wiki/p.html#top".
Proof. vm_compute. auto. Qed.
