(** Property theorems C08, C09, C36 (src/extensions/highlight.c). *)
From Verif Require Import Base M_Highlight S_Highlight L_Highlight.

(** C08 fails in general: the whole text "==a==" loses its closing tag, because
    the buffer has only twice the length of the text. *)
Theorem C08_highlight_lossless_refuted :
  exists w o, process_highlights [] (B "==a==") = Some (w, o) /\ w_out w = B "<mark>a".
Proof. do 2 eexists; split; vm_compute; reflexivity. Qed.
Print Assumptions C08_highlight_lossless_refuted.

(** C08 for every text whose rendered form is shorter than twice the text: the
    text splits into plain bytes and highlights, the highlights obey the rules
    for their content and their surroundings (not in CriticMarkup braces, not in
    a longer run of the delimiter, not in an indented code line), and the output is exactly the rendered form (so deleting
    the generated tags gives the source without the delimiters).  Missing from
    the full statement: texts whose rendered form does not fit, for which it is
    false by the theorem above. *)
Theorem C08_highlight_lossless_partial :
  forall beyond text,
  exists w o segs, process_highlights beyond text = Some (w, o) /\
    text = flat_map hl_source segs /\
    Forall (fun g => match g with HMark t => mark_content t | _ => True end) segs /\
    marks_placed segs /\
    (length (flat_map hl_html segs) < 2 * length text ->
     w_out w = flat_map hl_html segs /\ w_oob w = false).
Proof. exact hl_ok. Qed.
Print Assumptions C08_highlight_lossless_partial.

(** C08: text without the delimiter is left alone, byte for byte. *)
Theorem C08_plain_text_unchanged :
  forall beyond text, text <> [] -> (forall a b, text <> a ++ B "==" ++ b) ->
  exists w o, process_highlights beyond text = Some (w, o) /\ w_out w = text /\ w_oob w = false.
Proof. exact hl_plain. Qed.
Print Assumptions C08_plain_text_unchanged.

(** C08: an ordinary highlight on the first line is converted, with the text
    before it kept and the content unaltered. *)
Theorem C08_highlight_converted :
  forall beyond pre t post,
  ~ In BT pre -> ~ In NL pre -> (forall a b, pre <> a ++ B "==" ++ b) ->
  at_ pre 0 <> SP -> at_ pre 0 <> TAB ->
  last pre NUL <> "="%char -> last pre NUL <> "+"%char -> last pre NUL <> "{"%char ->
  (mark_content t /\ ~ In "="%char t /\ ~ In "+"%char t /\
   (forall r, t <> "}"%char :: r) /\ nul_free t) ->
  (forall r, post <> "="%char :: r) -> (forall r, post <> "+"%char :: r) ->
  9 <= length pre + length t + 2 * length post ->
  exists w o e,
    process_highlights beyond (pre ++ B "==" ++ t ++ B "==" ++ post) = Some (w, o) /\
    w_out w = pre ++ B "<mark>" ++ t ++ B "</mark>" ++ e.
Proof. exact hl_recognised. Qed.
Print Assumptions C08_highlight_converted.

Example C08_case :
  option_map (fun r => w_out (fst r))
    (process_highlights [] (B "see ==this one== and a == b and `==x==` here"))
  = Some (B "see <mark>this one</mark> and a == b and `==x==` here").
Proof. vm_compute. reflexivity. Qed.

(** C09 fails: bytes behind the terminator are read for every non-empty text
    that does not end in the delimiter ... *)
Theorem C09_highlight_overread_refuted :
  forall beyond text w o, text <> [] -> (forall a, text <> a ++ B "==") ->
  process_highlights beyond text = Some (w, o) -> o = true.
Proof. exact hl_overread. Qed.
Print Assumptions C09_highlight_overread_refuted.

(** ... and the terminator of the result is written outside its buffer for some. *)
Theorem C09_highlight_write_refuted :
  exists text beyond w o, process_highlights beyond text = Some (w, o) /\ w_oob w = true.
Proof. exact hl_write_refuted. Qed.
Print Assumptions C09_highlight_write_refuted.

Example C09_case : exists w, process_highlights [] (B "a") = Some (w, true).
Proof. eexists. vm_compute. reflexivity. Qed.

(** C36: inline code is never altered. *)
Theorem C36_code_span_untouched :
  forall beyond pre code post,
  ~ In BT pre -> (forall a b, pre <> a ++ B "==" ++ b) ->
  code <> [] -> ~ In BT code -> (forall r, post <> BT :: r) ->
  exists w o e, process_highlights beyond (pre ++ [BT] ++ code ++ [BT] ++ post) = Some (w, o) /\
    w_out w = pre ++ [BT] ++ code ++ [BT] ++ e.
Proof. exact hl_code_span. Qed.
Print Assumptions C36_code_span_untouched.

Example C36_case :
  option_map (fun r => w_out (fst r)) (process_highlights [] (B "x `a ==b== c` y"))
  = Some (B "x `a ==b== c` y").
Proof. vm_compute. reflexivity. Qed.

(** C36: fenced code is never altered. *)
Theorem C36_fenced_code_untouched :
  forall beyond pre code post,
  ~ In BT pre -> (forall a b, pre <> a ++ B "==" ++ b) ->
  ~ In BT code -> code <> [] ->
  exists w o e, process_highlights beyond (pre ++ B "```" ++ code ++ B "```" ++ post) = Some (w, o) /\
    w_out w = pre ++ B "```" ++ code ++ e.
Proof. exact hl_fenced. Qed.
Print Assumptions C36_fenced_code_untouched.

Example C36_case_fenced :
  option_map (fun r => w_out (fst r)) (process_highlights [] (B "x" ++ [NL] ++ B "```" ++ [NL] ++ B "a ==b== c" ++ [NL] ++ B "```" ++ [NL] ++ B "d ==e== f"))
  = Some (B "x" ++ [NL] ++ B "```" ++ [NL] ++ B "a ==b== c" ++ [NL] ++ B "```" ++ [NL] ++ B "d <mark>e</mark> f").
Proof. vm_compute. reflexivity. Qed.
