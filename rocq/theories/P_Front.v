(** C231-C239: the metadata at the head of a document. *)
From Verif Require Import Base BaseL M_Meta S_Pass L_Pass M_Front S_Front L_Front.

(** C231: what is left of the text is its end, from the start of a line on, or nothing; and a text without metadata is left as it is. For every text. *)
Theorem C231_lines : forall text, snd (extract no_lib text) = [] \/ exists ls, text = rows ls ++ snd (extract no_lib text).
Proof. exact extract_lines. Qed.
Print Assumptions C231_lines.

(** With the library too the text that is left is an end of the text, and without items it is the text. *)
Theorem C231_suffix : forall lib text, (exists a, text = a ++ snd (extract lib text)) /\ (fst (extract lib text) = [] -> snd (extract lib text) = text).
Proof.
  intros lib text. unfold extract.
  match goal with |- context [let (_, _) := ?x in _] => destruct x as [[|i items] n] end; cbn [fst snd].
  - split; [exists []; reflexivity|reflexivity].
  - split; [exists (firstn n text); symmetry; apply firstn_skipn|discriminate].
Qed.
Print Assumptions C231_suffix.

Example C231_case : extract no_lib (B "Title: A" ++ [NL] ++ B "Text" ++ [NL] ++ B "more") = ([(B "Title", B "A")], B "Text" ++ [NL] ++ B "more").
Proof. vm_compute. reflexivity. Qed.

(** C232: lines of pairs and a blank line: the items are exactly the pairs, the last first, and the text is exactly what follows the blank line. *)
Theorem C232_block : forall lib ps body, ps <> [] -> Forall plain_pair ps -> extract lib (rows (map pair_line ps) ++ [NL] ++ body) = (rev ps, body).
Proof. exact mmd_block. Qed.
Print Assumptions C232_block.

(** Without a blank line the text begins with the first line that has no colon, if that line ends in a newline. *)
Theorem C232_text : forall lib ps l body, ps <> [] -> Forall plain_pair ps -> one_line l -> ~ whites (firstn 1023 l) -> ~ In ":"%char l ->
  extract lib (rows (map pair_line ps) ++ row l ++ body) = (rev ps, row l ++ body).
Proof. intros lib ps l body N F O W C. unfold row. rewrite <- app_assoc. exact (mmd_stop lib ps l body N F O W C). Qed.
Print Assumptions C232_text.

Example C232_case : let ps := [(B "Title", B "A, b: c"); (B "base URL", B "x")] in
  Forall plain_pair ps /\ extract no_lib (rows (map pair_line ps) ++ [NL] ++ B "Body") = (rev ps, B "Body").
Proof.
  cbv zeta. split; [|vm_compute; reflexivity].
  assert (forall k v, plain_key k -> solid v -> one_line v -> ~ In "["%char v -> holds_ (B "{i:") v = false -> holds_ (B "://") v = false -> length (pair_line (k, v)) <= 1023 -> plain_pair (k, v)) as P.
  { intros k v Pk Sv Ov Bv H1 H2 L. split; [exact Pk|]. split; [exact Sv|]. split; [exact Ov|]. split; [exact Bv|]. cbn [fst snd]. split; [|split; [right|exact L]].
    - intro W. rewrite (holds_true _ _ W) in H1. discriminate H1.
    - intro W. rewrite (holds_true _ _ W) in H2. discriminate H2. }
  assert (forall k, k <> [] -> isalpha (at_ k 0) = true -> isspace (last k NUL) = false -> forallb (fun c => isalnum c || ceq c SP) k = true -> plain_key k) as K.
  { intros k N A E F. destruct k as [|c r]; [destruct (N eq_refl)|]. change (at_ (c :: r) 0) with c in A. split; [split|split].
    - exists c, r. split; [reflexivity|]. apply (alpha_byte c A).
    - exists (last (c :: r) NUL), (removelast (c :: r)). split; [apply app_removelast_last; discriminate|exact E].
    - rewrite Forall_forall. rewrite forallb_forall in F. intros x I. specialize (F x I). apply orb_prop in F. destruct F as [F|F]; [left; exact F|right; left; apply ceq_eq; exact F].
    - exists c, r. auto. }
  constructor; [|constructor; [|constructor]].
  - apply P; try reflexivity; [apply K; [discriminate|reflexivity..]| | | |cbn; lia].
    + split; [exists "A"%char; eexists; split; reflexivity|]. exists "c"%char, (B "A, b: "). split; reflexivity.
    + vm_compute. intuition discriminate.
    + vm_compute. intuition discriminate.
  - apply P; try reflexivity; [apply K; [discriminate|reflexivity..]| | | |cbn; lia].
    + split; [exists "x"%char; eexists; split; reflexivity|]. exists "x"%char, []. split; reflexivity.
    + vm_compute. intuition discriminate.
    + vm_compute. intuition discriminate.
Qed.

(** C233: nothing but metadata is taken out of the document. False in two ways: a heading before the metadata goes with it, and so does the last line of the file when it follows metadata and has no newline, whatever it says. *)
Theorem C233_heading_refuted : forall lib h ps body, one_line h -> ps <> [] -> Forall plain_pair ps ->
  extract lib (row (heading h) ++ rows (map pair_line ps) ++ [NL] ++ body) = (rev ps, body).
Proof. exact mmd_heading. Qed.
Print Assumptions C233_heading_refuted.

Theorem C233_tail_refuted : forall lib ps t, ps <> [] -> Forall plain_pair ps -> one_line t -> extract lib (rows (map pair_line ps) ++ t) = (rev ps, []).
Proof. exact mmd_tail. Qed.
Print Assumptions C233_tail_refuted.

(** What is true: if the text ends in a newline and does not begin with a blank line, a heading, a comment, an abbreviation, a marker or attributes, then every line taken says its item, except one blank line at the end; and every item is on a line taken. Missing for the full claim: the beginnings excluded, and texts without the last newline. *)
Theorem C233_partial : forall lib l ls items rest, Forall one_line (l :: ls) -> plain_start (firstn 1023 l) -> (forall r, l <> B "---" ++ r) -> (forall r, l <> "%"%char :: r) ->
  extract lib (rows (l :: ls)) = (items, rest) ->
  (items = [] /\ rest = rows (l :: ls)) \/
  exists used ps after, Forall2 (fun l p => says (firstn 1023 l) p) used ps /\ items = rev ps /\ rest = rows after /\
    (l :: ls = used ++ after \/ exists b, whites (firstn 1023 b) /\ l :: ls = used ++ b :: after).
Proof.
  intros lib l ls items rest O P N1 N2 E.
  assert (lines_of (rows (l :: ls)) = (l :: ls, [])) as L.
  { pose proof (lines_rows (l :: ls) [] O) as H. rewrite app_nil_r in H. rewrite H. cbn [lines_of fst snd]. rewrite app_nil_r. reflexivity. }
  assert (mmd_text (rows (l :: ls))) as T.
  { destruct P as (a & x & Ea & _ & (c & r & Ex & _) & _). 
    destruct l as [|d l']; [rewrite Ex in Ea; destruct a; discriminate Ea|].
    exists d, (l' ++ [NL] ++ rows ls). assert (rows ((d :: l') :: ls) = d :: l' ++ [NL] ++ rows ls) as R by (unfold rows, row; cbn [map concat app]; rewrite <- app_assoc; reflexivity).
    split; [exact R|]. rewrite R. split.
    - apply bool_false. intro Q. apply starts_spec in Q. destruct Q as [q Q].
      destruct l' as [|d2 l']; [discriminate Q|]. destruct l' as [|d3 l']; [discriminate Q|]. injection Q as -> -> -> _. exact (N1 l' eq_refl).
    - apply ceq_neq. intros ->. exact (N2 l' eq_refl). }
  destruct (mmd_lines false (l :: ls) []) as [items' lo] eqn:M.
  destruct items' as [|i items'].
  - left. rewrite (mmd_none lib _ lo T) in E; [injection E as <- <-; auto|]. rewrite L. exact M.
  - right. rewrite (mmd_extract lib _ (i :: items') lo T) in E; [|rewrite L; exact M|discriminate].
    injection E as <- E. apply mmd_first in M; [|exact P|discriminate]. destruct (mmd_found _ _ _ _ M) as (used & ps & F & Ei & El). rewrite app_nil_r in Ei.
    destruct lo as [|ls'|]; [destruct El| |].
    + exists used, ps, ls'. split; [exact F|]. split; [exact Ei|]. split; [|exact El].
      assert (exists u, fst (lines_of (rows (l :: ls))) = u ++ ls') as [u Eu].
      { rewrite L. cbn [fst]. destruct El as [El|(b & _ & El)]; [exists used; exact El|exists (used ++ [b]); rewrite El, <- app_assoc; reflexivity]. }
      destruct (rest_rows _ _ _ Eu) as [_ K]. rewrite K in E. rewrite <- E, L. cbn [snd]. unfold joined. rewrite app_nil_r. reflexivity.
    + exists used, ps, []. split; [exact F|]. split; [exact Ei|]. split; [symmetry; exact E|]. left. rewrite app_nil_r. exact El.
Qed.
Print Assumptions C233_partial.

Example C233_case : extract no_lib (B "# Top" ++ [NL] ++ B "a: b" ++ [NL; NL] ++ B "x") = ([(B "a", B "b")], B "x")
  /\ extract no_lib (B "a: b" ++ [NL] ++ B "The whole text.") = ([(B "a", B "b")], []).
Proof. split; vm_compute; reflexivity. Qed.

(** C234: the value of an item is the text of its line after the colon. False of every line of more than 1023 bytes: it is cut there, and the rest of it is lost. (For lines up to that length C232_block gives the whole value.) *)
Theorem C234_refuted : forall lib k v body, plain_key k -> length k <= 1000 -> Forall (fun c => isspace c = false) v -> ~ In "["%char v -> ~ within (B "{i:") v ->
  (length k < 7 \/ ~ within (B "://") v) -> 1023 < length (pair_line (k, v)) ->
  extract lib (row (pair_line (k, v)) ++ [NL] ++ body) = ([(k, firstn (1021 - length k) v)], body)
  /\ firstn (1021 - length k) v <> v.
Proof.
  intros lib k v body Pk Lk Fv Bv Iv Uv Ln. split; [exact (long_pair lib k v body Pk Lk Fv Bv Iv Uv Ln)|].
  intro Q. apply (f_equal (@length ascii)) in Q. rewrite firstn_length in Q. unfold pair_line in Ln. cbn [fst snd] in Ln. rewrite !app_length in Ln. cbn [length B String.list_ascii_of_string] in Ln. lia.
Qed.
Print Assumptions C234_refuted.

Theorem C234_partial : forall lib k v body, plain_pair (k, v) -> extract lib (row (pair_line (k, v)) ++ [NL] ++ body) = ([(k, v)], body).
Proof.
  intros lib k v body P. pose proof (mmd_block lib [(k, v)] body ltac:(discriminate) ltac:(constructor; [exact P|constructor])) as H. unfold rows in H. cbn [map concat] in H. rewrite app_nil_r in H. exact H.
Qed.
Print Assumptions C234_partial.

Example C234_case : snd (hd ([], []) (fst (extract no_lib (B "k: " ++ repeat "v"%char 1100 ++ [NL; NL])))) = repeat "v"%char 1020.
Proof. vm_compute. reflexivity. Qed.

(** C235: a URL is a value like any other. False: with a key of seven bytes or more the line is no metadata, and as the first line it makes all of the block text. With a shorter key it is an item, by C232_block. *)
Theorem C235_refuted : forall lib k v rest, plain_key k -> 7 <= length k -> solid v -> one_line v -> within (B "://") v -> length (pair_line (k, v)) <= 1023 ->
  extract lib (row (pair_line (k, v)) ++ rest) = ([], row (pair_line (k, v)) ++ rest).
Proof. exact url_line. Qed.
Print Assumptions C235_refuted.

Theorem C235_partial : forall lib k v body, plain_key k -> length k < 7 -> solid v -> one_line v -> ~ In "["%char v -> ~ within (B "{i:") v -> length (pair_line (k, v)) <= 1023 ->
  extract lib (row (pair_line (k, v)) ++ [NL] ++ body) = ([(k, v)], body).
Proof.
  intros lib k v body Pk Lk Sv Ov Bv Iv L. apply C234_partial. split; [exact Pk|]. split; [exact Sv|]. split; [exact Ov|]. split; [exact Bv|]. split; [exact Iv|]. split; [left; exact Lk|exact L].
Qed.
Print Assumptions C235_partial.

Example C235_case : extract no_lib (B "website: http://x.y" ++ [NL] ++ B "Title: T" ++ [NL; NL]) = ([], B "website: http://x.y" ++ [NL] ++ B "Title: T" ++ [NL; NL])
  /\ extract no_lib (B "site: http://x.y" ++ [NL] ++ B "Title: T" ++ [NL; NL]) = ([(B "Title", B "T"); (B "site", B "http://x.y")], []).
Proof. split; vm_compute; reflexivity. Qed.

(** C236: YAML front matter between "---" and "---" or "...", read without the library: the items are the pairs of its lines, quotes removed, and the text is what follows the closing line. *)
Theorem C236_closed : forall ls ps mark body, Forall2 yaml_pair ls ps -> ps <> [] -> mark = B "---" \/ mark = B "..." ->
  extract no_lib (row (B "---") ++ rows ls ++ row mark ++ body) = (rev ps, body).
Proof. exact yaml_closed. Qed.
Print Assumptions C236_closed.

(** A block that is never closed is no front matter: false, its lines become items, and they stay in the text as well. *)
Theorem C236_refuted : forall ls ps t, Forall2 yaml_pair ls ps -> ps <> [] -> one_line t ->
  extract no_lib (row (B "---") ++ rows ls ++ t) = (rev ps, row (B "---") ++ rows ls ++ t).
Proof. exact yaml_unclosed. Qed.
Print Assumptions C236_refuted.

Example C236_case : extract no_lib (concat (map row [B "---"; B "title: ""A b"""; B "author: 'X'"; B "empty:"; B "- list"; B "..."; B "Text"])) =
  ([(B "empty", []); (B "author", B "X"); (B "title", B "A b")], row (B "Text"))
  /\ extract no_lib (row (B "---") ++ B "Some: text" ++ [NL] ++ B "end") = ([(B "Some", B "text")], row (B "---") ++ B "Some: text" ++ [NL] ++ B "end").
Proof. split; vm_compute; reflexivity. Qed.

(** C237: with the library: it is given exactly the block, and nothing after the closing line is lost. True of a block closed by "---". *)
Theorem C237_partial : forall lib block rest items, block <> [] -> ~ within (NL :: B "---") block -> lib block = Some items -> items <> [] ->
  extract lib (row (B "---") ++ block ++ [NL] ++ B "---" ++ rest) = (items, rest).
Proof. exact lib_closed. Qed.
Print Assumptions C237_partial.

(** False of a block closed by "..." with a rule "---" later in the text: the library is given the text up to the rule, and when it reads the first document of that, the text between the dots and the rule is gone. *)
Theorem C237_refuted : forall lib block text rest items, ~ within (NL :: B "---") (block ++ [NL] ++ B "..." ++ [NL] ++ text) ->
  lib (block ++ [NL] ++ B "..." ++ [NL] ++ text) = Some items -> items <> [] ->
  extract lib (row (B "---") ++ block ++ [NL] ++ B "..." ++ [NL] ++ text ++ [NL] ++ B "---" ++ rest) = (items, rest).
Proof.
  intros lib block text rest items W L N.
  assert (row (B "---") ++ block ++ [NL] ++ B "..." ++ [NL] ++ text ++ [NL] ++ B "---" ++ rest = row (B "---") ++ (block ++ [NL] ++ B "..." ++ [NL] ++ text) ++ NL :: B "---" ++ rest) as -> by (rewrite <- !app_assoc; reflexivity).
  apply lib_closed; [destruct block; discriminate|exact W|exact L|exact N].
Qed.
Print Assumptions C237_refuted.

Example C237_case : forall lib : yaml_lib, lib (B "a: b" ++ [NL] ++ B "..." ++ [NL] ++ B "The text.") = Some [(B "a", B "b")] ->
  extract lib (concat (map row [B "---"; B "a: b"; B "..."; B "The text."; B "---"; B "The rest."])) = ([(B "a", B "b")], [NL] ++ row (B "The rest.")).
Proof.
  intros lib L. exact (C237_refuted lib (B "a: b") (B "The text.") ([NL] ++ row (B "The rest.")) [(B "a", B "b")]
    ltac:(intro W; apply holds_true in W; vm_compute in W; discriminate W) L ltac:(discriminate)).
Qed.

(** C238: a Pandoc title block of up to three lines: title, author and date in this order, an empty line "%" skips its key, and the text is what follows. *)
Theorem C238_title_block : forall lib ts vs body, Forall2 title_line ts vs -> length ts <= 3 -> length ts = 3 \/ no_percent body ->
  title_items [B "title"; B "author"; B "date"] vs <> [] ->
  extract lib (rows ts ++ body) = (rev (title_items [B "title"; B "author"; B "date"] vs), body).
Proof. exact title_block. Qed.
Print Assumptions C238_title_block.

Example C238_case : extract no_lib (rows [B "% A title"; B "%"; B "% 2020"; B "% no date"]) = ([(B "date", B "2020"); (B "title", B "A title")], row (B "% no date")).
Proof. vm_compute. reflexivity. Qed.

(** C239: the front matter that the command writes from the merged metadata: the buffer is never left, for any metadata. *)
Theorem C239_buffer : forall m, exists f, yaml_front m = Some (row (B "---") ++ f ++ row (B "---")).
Proof. intro m. eexists. exact (front_exact m). Qed.
Print Assumptions C239_buffer.

(** Reading it back gives the metadata and the text. False of a value in single quotes: they are lost. *)
Theorem C239_refuted : forall k v n text, plain_key k -> one_line v -> v = [] \/ solid v -> length k + length v <= 1019 -> ~ In ":"%char v -> ~ In DQ v -> ~ In BS v ->
  exists t, enhanced [(k, SQ :: v ++ [SQ])] n text = Some t /\ extract no_lib t = ([(k, v)], skipn n text).
Proof. exact front_quotes. Qed.
Print Assumptions C239_refuted.

(** True, with the parser of the program, of all other values on one line with no white space at the ends, the lines at most 1023 bytes. Missing for the full claim: values in single quotes, values with newlines, longer lines, other keys. *)
Theorem C239_partial : forall m n text, m <> [] -> Forall front_item m -> exists t, enhanced m n text = Some t /\ extract no_lib t = (rev m, skipn n text).
Proof. exact front_round. Qed.
Print Assumptions C239_partial.

Example C239_case : exists t, enhanced [(B "title", B "A: ""b""")] 2 (B "xxBody") = Some t /\ extract no_lib t = ([(B "title", B "A: ""b""")], B "Body").
Proof. eexists. split; [vm_compute; reflexivity|vm_compute; reflexivity]. Qed.
