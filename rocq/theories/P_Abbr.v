(** Properties of abbreviations (C70, C71, C72). *)
From Verif Require Import Base BaseL M_Abbr S_Abbr L_Abbr L_Abbr2.

(** ** C70: extraction *)
(** Full statement: for every text, what is left is the text with every inline
    definition replaced by its abbreviation and every definition line removed, and
    the list has exactly the pairs defined.  False in three ways (below). *)
Theorem C70_extract_partial l ls d0 k d :
  nul_free (write_pieces l) -> write_pieces l <> [] ->
  pieces_ok l -> Forall tidy l -> defines_all l d0 ->
  write_lines ls = spoken l -> lines_ok ls -> Forall (fun x => length (fst x) < 1024) ls -> sorted ls k d ->
  extract_abbreviations (write_pieces l) = Some (Extracted (d0 ++ d) (write_lines k) false).
Proof. exact (extract_ok l ls d0 k d). Qed.
Print Assumptions C70_extract_partial.

(** Every text can be read that way. *)
Theorem C70_reading text : exists l ls d0 k d,
  write_pieces l = text /\ pieces_ok l /\ defines_all l d0 /\
  write_lines ls = spoken l /\ lines_ok ls /\ sorted ls k d.
Proof.
  destruct (pieces_exist _ text (le_n _)) as (l & W & O). destruct (defines_exist l) as [d0 D].
  destruct (lines_exist _ (spoken l) (le_n _)) as (ls & W2 & O2). destruct (sorted_exist ls) as (k & d & So).
  exists l, ls, d0, k, d. auto 10.
Qed.
Print Assumptions C70_reading.

Definition long_line : list ascii := repeat "x"%char 1030.
Theorem C70_long_line_refuted :
  exists e, extract_abbreviations long_line = Some e /\ e_text e = firstn 1023 long_line /\ e_items e = [].
Proof. eexists. split; [vm_compute; reflexivity|]. split; vm_compute; reflexivity. Qed.
Print Assumptions C70_long_line_refuted.
Theorem C70_lost_text_refuted :
  exists e, extract_abbreviations (B "See [>(MMD ) MultiMarkdown] and the rest.") = Some e /\ e_text e = B "See MMD".
Proof. eexists. split; vm_compute; reflexivity. Qed.
Print Assumptions C70_lost_text_refuted.
Theorem C70_empty_refuted : exists e, extract_abbreviations [] = Some e /\ e_oob e = true.
Proof. eexists. split; vm_compute; reflexivity. Qed.
Print Assumptions C70_empty_refuted.
Example C70_case :
  extract_abbreviations (B "A [>(MMD) MultiMarkdown] b" ++ [NL] ++ B "*[CSS]: Style sheets" ++ [NL] ++ B "[>XML]: x m l " ++ [NL] ++ B "end") =
  Some (Extracted [(B "MMD", B "MultiMarkdown"); (B "CSS", B "Style sheets"); (B "XML", B "x m l")]
          (B "A MMD b" ++ [NL] ++ B "end") false).
Proof. vm_compute. reflexivity. Qed.

(** ** C71: marking up *)
(** Full statement: for every list of pairs and every HTML, the result is the HTML
    marked up and no byte is stored outside the buffers.  True exactly when the
    result is shorter than five times the HTML, given that no abbreviation is empty
    and the fixed arrays are long enough. *)
Theorem C71_replace_partial items html o fuel : items <> [] ->
  filled items -> short_tags items -> short_explicit html ->
  marked items None html o -> length html < fuel ->
  ((exists w, replace_abbreviations fuel html items = Some (Out w) /\ w_out w = o /\ w_oob w = false)
   <-> length o < length html * 5).
Proof. exact (replace_exact items html o fuel). Qed.
Print Assumptions C71_replace_partial.
Theorem C71_marked items html : filled items -> exists o, marked items None html o.
Proof. intros F. exact (marked_exists items F _ html None (le_n _)). Qed.
Print Assumptions C71_marked.
Theorem C71_terminates_partial items html : filled items ->
  forall fuel, length html < fuel -> replace_abbreviations fuel html items <> None.
Proof. exact (replace_ends items html). Qed.
Print Assumptions C71_terminates_partial.
(** The only byte ever stored outside is the NUL, and only when the buffer is full. *)
Theorem C71_bounds items html fuel w : items <> [] -> replace_abbreviations fuel html items = Some (Out w) ->
  (w_oob w = true <-> length (w_out w) = length html * 5).
Proof. exact (replace_oob items html fuel w). Qed.
Print Assumptions C71_bounds.
Definition markup_items := [(B "HTML", B "Hyper Text Markup Language")].
Theorem C71_full_refuted :
  exists w, replace_abbreviations 100 (B "<p>HTML</p>" ++ [NL]) markup_items = Some (Out w) /\ w_oob w = true.
Proof. eexists. split; vm_compute; reflexivity. Qed.
Print Assumptions C71_full_refuted.
Theorem C71_dropped_refuted :
  exists w, replace_abbreviations 100 (B "<p>CSS</p>") [(B "CSS", B "Cascading Style Sheets, a language")] = Some (Out w) /\
    w_out w = B "<p></p>".
Proof. eexists. split; vm_compute; reflexivity. Qed.
Print Assumptions C71_dropped_refuted.
Theorem C71_smashed_refuted :
  replace_abbreviations 1000 (explicit (repeat "x"%char 300) (B " y")) markup_items = Some Smashed.
Proof. vm_compute. reflexivity. Qed.
Print Assumptions C71_smashed_refuted.
(** A document with [[>( ) x]] in it: the empty abbreviation is found again and
    again at the first tag. *)
Theorem C71_endless_refuted : exists e, extract_abbreviations (B "[>( ) x]") = Some e /\
  forall html fuel, replace_abbreviations fuel ("<"%char :: html) (e_items e) = None.
Proof. eexists. split; [vm_compute; reflexivity|]. intros html fuel. exact (replace_endless (B "x") html _ fuel). Qed.
Print Assumptions C71_endless_refuted.
Example C71_case :
  exists w, replace_abbreviations 100 (B "<p>An XML file, [&gt;XML] and [&gt;(A) b c] with XMLs.</p>") [(B "XML", B "x m l")] = Some (Out w) /\
    w_out w = B "<p>An " ++ tag (B "XML") (B "x m l") ++ B " file, " ++ tag (B "XML") (B "x m l") ++ B " and " ++ tag (B "A") (B "b c") ++ B " with XMLs.</p>" /\
    w_oob w = false.
Proof. eexists. split; [vm_compute; reflexivity|]. split; vm_compute; reflexivity. Qed.

(** ** C72: nothing else changes *)
Theorem C72_text_partial items html o fuel : items <> [] ->
  filled items -> short_tags items -> short_explicit html ->
  marked items None html o -> length html < fuel -> length o < length html * 5 ->
  exists w, replace_abbreviations fuel html items = Some (Out w) /\
  exists l, html = concat (map seg_in l) /\ w_out w = concat (map seg_out l) /\ Forall (seg_ok items) l.
Proof.
  intros N F T E M L O. destruct (proj2 (C71_replace_partial items html o fuel N F T E M L) O) as (w & R & <- & _).
  exists w. split; [exact R|]. exact (marked_segs items None html _ M).
Qed.
Print Assumptions C72_text_partial.
(** Full statement: the tags of the HTML stay as they are.  False when an
    abbreviation is found in a tag. *)
Theorem C72_tags_partial items html o fuel : items <> [] ->
  filled items -> short_tags items -> short_explicit html ->
  outside_tags items html -> marked items None html o -> length html < fuel -> length o < length html * 5 ->
  exists w, replace_abbreviations fuel html items = Some (Out w) /\ other_tags (w_out w) = other_tags html.
Proof.
  intros N F T E H M L O. destruct (proj2 (C71_replace_partial items html o fuel N F T E M L) O) as (w & R & <- & _).
  exists w. split; [exact R|]. exact (tags_same items html H None html _ M [] None eq_refl eq_refl).
Qed.
Print Assumptions C72_tags_partial.
Definition link : list ascii := B "<a href=" ++ [DQ] ++ B "/CSS" ++ [DQ] ++ B ">x</a>".
Theorem C72_tags_refuted :
  exists w, replace_abbreviations 100 link [(B "CSS", B "s")] = Some (Out w) /\
    w_out w = B "<a href=" ++ [DQ] ++ B "/" ++ tag (B "CSS") (B "s") ++ [DQ] ++ B ">x</a>" /\
    w_oob w = false /\ other_tags (w_out w) <> other_tags link.
Proof. eexists. split; [vm_compute; reflexivity|]. split; [vm_compute; reflexivity|]. split; [vm_compute; reflexivity|]. vm_compute. discriminate. Qed.
Print Assumptions C72_tags_refuted.
Example C72_case :
  exists w, replace_abbreviations 100 (B "<p><b>CSS</b> rules</p>") [(B "CSS", B "s")] = Some (Out w) /\
    w_out w = B "<p><b>" ++ tag (B "CSS") (B "s") ++ B "</b> rules</p>" /\
    other_tags (w_out w) = [B "<p>"; B "<b>"; B "</b>"; B "</p>"].
Proof. eexists. split; [vm_compute; reflexivity|]. split; vm_compute; reflexivity. Qed.
