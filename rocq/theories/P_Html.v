(** Property theorems C16-C19, C63, C64 (src/html_renderer.c). *)
From Coq Require Import ZArith.
From Verif Require Import Base M_Html S_Html L_Html L_Html2.

(** C16: exactly the white space of opening tags is reduced: one space for every
    run, none in front of >; nothing is written outside the buffer. *)
Theorem C16_tag_spacing :
  forall d, doc_ok d ->
  w_oob (clean_spacing (source d)) = false /\ w_out (clean_spacing (source d)) = cleaned d.
Proof. exact clean_exact. Qed.
Print Assumptions C16_tag_spacing.

(** Every html is such a document. *)
Theorem C16_every_html : forall html, exists d, doc_ok d /\ source d = html.
Proof. exact doc_of. Qed.
Print Assumptions C16_every_html.

Theorem C16_idempotent :
  forall html, w_out (clean_spacing (w_out (clean_spacing html))) = w_out (clean_spacing html).
Proof. exact clean_idempotent. Qed.
Print Assumptions C16_idempotent.

Theorem C16_visible :
  forall html, filter (fun c => negb (isspace c)) (w_out (clean_spacing html)) = filter (fun c => negb (isspace c)) html.
Proof. exact clean_visible. Qed.
Print Assumptions C16_visible.

Example C16_case : w_out (clean_spacing (B "a  <p   class=x   id=y  >b  c</p  ><br />")) = B "a  <p class=x id=y>b  c</p  ><br />".
Proof. vm_compute. reflexivity. Qed.

(** C17: collapsing reads behind the terminator when the html ends in an odd
    number of > (for instance in any tag). *)
Theorem C17_collapse_refuted : exists html, ends_with 1 html /\ collapse html = Some Past.
Proof.
  exists (B "<p>a</p>"). split; [|vm_compute; reflexivity].
  exists (B "<p>a</p"). split; [reflexivity|]. intros b E.
  apply (f_equal (@rev ascii)) in E. rewrite rev_app_distr in E. discriminate.
Qed.
Print Assumptions C17_collapse_refuted.

(** Exactly then.  Otherwise only gaps between tags that have a newline change,
    into one newline or two; if no two > stand side by side all of them do. *)
Theorem C17_collapse_partial :
  forall html k, ends_with k html ->
  (Nat.odd k = true -> collapse html = Some Past) /\
  (Nat.odd k = false -> exists w, collapse html = Some (Collapsed w) /\ w_oob w = false /\
     compacted html (w_out w) /\ (no_double html -> compact (w_out w))).
Proof. exact collapse_ok. Qed.
Print Assumptions C17_collapse_partial.

Theorem C17_every_end : forall html, exists k, ends_with k html.
Proof. exact ends_with_exists. Qed.
Print Assumptions C17_every_end.

Theorem C17_visible :
  forall s o, compacted s o -> filter (fun c => negb (isspace c)) s = filter (fun c => negb (isspace c)) o.
Proof. exact compacted_visible. Qed.
Print Assumptions C17_visible.

Definition nl3 : list ascii := [NL; SP; NL; NL].
Example C17_case :
  exists w, collapse (B "<p>a </p>" ++ nl3 ++ B "<p> b" ++ [NL; NL]) = Some (Collapsed w) /\
  w_out w = B "<p>a </p>" ++ [NL; NL] ++ B "<p> b" ++ [NL; NL].
Proof. eexists. split; vm_compute; reflexivity. Qed.

(** C18: exactly the blank lines inside tables are deleted. *)
Theorem C18_blank_lines :
  forall html, w_oob (remove_blank_lines html) = false /\ trimmed [] html (w_out (remove_blank_lines html)).
Proof. exact blank_lines_ok. Qed.
Print Assumptions C18_blank_lines.

(** The specification leaves no choice. *)
Theorem C18_determined : forall pre s o, trimmed pre s o -> forall o', trimmed pre s o' -> o = o'.
Proof. exact trimmed_fun. Qed.
Print Assumptions C18_determined.

Example C18_case :
  w_out (remove_blank_lines (B "a" ++ [NL; NL] ++ B "<table>" ++ [NL; SP; NL] ++ B "<tr>" ++ [NL; NL] ++ B "</table>" ++ [NL; NL]))
  = B "a" ++ [NL; NL] ++ B "<table>" ++ [NL] ++ B "<tr>" ++ [NL] ++ B "</table>" ++ [NL; NL].
Proof. vm_compute. reflexivity. Qed.

(** C63: a row with a cell that is not closed is deleted whatever it says. *)
Theorem C63_open_cell_refuted :
  exists w, remove_separator_rows (B "<table><tr><td>text</tr></table>") = Some w /\ w_out w = B "<table></table>".
Proof. eexists. split; vm_compute; reflexivity. Qed.
Print Assumptions C63_open_cell_refuted.

(** When the rows are made of closed cells without markup inside them, exactly
    the rows of tables all of whose cells are dashes are deleted. *)
Theorem C63_separator_rows_partial :
  forall l, items_ok l -> exists w o, remove_separator_rows (write_items l) = Some w /\ w_oob w = false /\
  without_separators false l o /\ w_out w = write_items o.
Proof. exact rows_exact. Qed.
Print Assumptions C63_separator_rows_partial.

Theorem C63_determined :
  forall t l o, without_separators t l o -> forall o', without_separators t l o' -> o = o'.
Proof. exact without_fun. Qed.
Print Assumptions C63_determined.

Example C63_case :
  exists w, remove_separator_rows (B "<tr><td>--</td></tr><table><tr><th a=b>x</th> <td>y</td></tr><tr><td>:--</td><td> -- </td></tr></table>") = Some w /\
  w_out w = B "<tr><td>--</td></tr><table><tr><th a=b>x</th> <td>y</td></tr></table>".
Proof. eexists. split; vm_compute; reflexivity. Qed.

(** C19: with a base level from 1 to 6 heading tags move by the same amount, at
    most to level 6, and nothing else changes; with any other nothing changes. *)
Theorem C19_heading_levels :
  forall b l, htoks_ok l -> (1 <= b <= 6)%Z ->
  exists w, adjust_levels b (write_htoks l) = Some w /\ w_oob w = false /\
    w_out w = write_htoks (map (shift_htok (Z.to_nat b)) l).
Proof. exact levels_exact. Qed.
Print Assumptions C19_heading_levels.

Theorem C19_other_levels :
  forall b html, (b <= 0 \/ 6 < b)%Z -> exists w, adjust_levels b html = Some w /\ w_oob w = false /\ w_out w = html.
Proof. exact levels_off. Qed.
Print Assumptions C19_other_levels.

Theorem C19_every_html : forall html, exists l, htoks_ok l /\ write_htoks l = html.
Proof. exact htoks_of. Qed.
Print Assumptions C19_every_html.

(** Matching tags stay matched. *)
Theorem C19_nested : forall b l, nested l -> nested (map (shift_htok b) l).
Proof. exact nested_shift. Qed.
Print Assumptions C19_nested.

Example C19_case :
  exists w, adjust_levels 3 (B "<h1 id=a>A</h1><h5>B</h5><header></header><h2") = Some w /\
  w_out w = B "<h3 id=a>A</h3><h6>B</h6><header></header><h2".
Proof. eexists. split; vm_compute; reflexivity. Qed.

(** C64: the buffer is twice the html, and every replacement is checked against
    it, so a quote can be left alone; and the terminator is not. *)
Theorem C64_quotes_refuted :
  (exists w, adjust_quotes (B "french") (write_qtoks [Curly DOpen]) = Some w /\ w_out w = write_qtoks [Curly DOpen]) /\
  (exists w, adjust_quotes (B "german") (write_qtoks [Curly DOpen; QByte "a"]) = Some w /\ w_oob w = true).
Proof. split; eexists; split; vm_compute; reflexivity. Qed.
Print Assumptions C64_quotes_refuted.

(** When the result is shorter than twice the html every quote is replaced by the
    one of the language, nothing else changes, and the buffer suffices. *)
Theorem C64_quotes_partial :
  forall name lang l f d, In (name, lang) language_names -> spells l (B name) ->
  (forall k, language_quotes lang k = Some (f k)) -> qtoks_ok d ->
  length (concat (map (quoted f) d)) < 2 * length (write_qtoks d) ->
  exists w, adjust_quotes l (write_qtoks d) = Some w /\ w_oob w = false /\ w_out w = concat (map (quoted f) d).
Proof. exact quotes_exact. Qed.
Print Assumptions C64_quotes_partial.

Theorem C64_every_html : forall html, exists l, qtoks_ok l /\ write_qtoks l = html.
Proof. exact qtoks_of. Qed.
Print Assumptions C64_every_html.

Theorem C64_other_language :
  forall l html, (forall name lang, In (name, lang) language_names -> ~ spells l (B name)) ->
  exists w, adjust_quotes l html = Some w /\ w_oob w = false /\ w_out w = html.
Proof. exact quotes_off. Qed.
Print Assumptions C64_other_language.

Example C64_case :
  exists w, adjust_quotes (B " FR ") (B "He said &ldquo;yes&rdquo; to it all") = Some w /\
  w_out w = B "He said &laquo;&nbsp;yes&nbsp;&raquo; to it all".
Proof. eexists. split; vm_compute; reflexivity. Qed.
