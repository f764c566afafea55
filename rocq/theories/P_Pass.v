(** Properties C203-C209: passes over the finished HTML (src/apex.c). *)
From Verif Require Import Base BaseL M_Pass S_Pass L_Divs2 L_Pass.

Lemma absent x s : strstr x s = None -> ~ has x s.
Proof. intros H (a & b & E). exact (strstr_none _ s H a b E). Qed.

(** * C203: rules become page breaks, everything else stays, and the buffer is large enough *)
Theorem C203_rules html : exists h, Ruled html h /\ replace_rules html = Out h.
Proof. destruct (ruled_total html) as [h R]. exists h. split; [exact R|exact (replace_spec html h R)]. Qed.
Print Assumptions C203_rules.
Theorem C203_unique html h h' : Ruled html h -> Ruled html h' -> h = h'.
Proof. intros R R'. pose proof (replace_spec _ _ R) as E. rewrite (replace_spec _ _ R') in E. congruence. Qed.
Print Assumptions C203_unique.
Example C203_case : Ruled (B "a<hr />b<hr class=""c"">") (B "a" ++ page_break ++ B "b" ++ page_break) /\ replace_rules (B "a<hr />b<hr class=""c"">") = Out (B "a" ++ page_break ++ B "b" ++ page_break).
Proof.
  split; [|vm_compute; reflexivity]. apply (R_rule (B "a") (B " /") (B "b<hr class=""c"">") (B "b" ++ page_break)); [apply absent; reflexivity|cbn; intuition discriminate|].
  change (B "b<hr class=""c"">") with (B "b" ++ B "<hr" ++ B " class=""c""" ++ B ">" ++ []). replace (B "b" ++ page_break) with (B "b" ++ page_break ++ []) by (rewrite app_nil_r; reflexivity).
  apply R_rule; [apply absent; reflexivity|cbn; intuition discriminate|]. apply R_none, absent. reflexivity.
Qed.

(** * C204: a rule is replaced as a whole, and nothing that is no rule *)
Theorem C204_refuted : replace_rules (B "<hr title=""a > b"">x") = Out (page_break ++ B " b"">x") /\ replace_rules (B "<hr-group>x</hr-group>") = Out (page_break ++ B "x</hr-group>").
Proof. split; vm_compute; reflexivity. Qed.
Print Assumptions C204_refuted.

(** * C205: code without a language gets the class poetry *)
Theorem C205_refuted : (exists a b, ~ has (B "class=") a /\ add_poetry (a ++ b) = Out (a ++ b) /\ a = B "<pre><code>x</code></pre>") /\
  add_poetry (B "<pre><code class=""x"">y</code></pre>") = Out (B "<pre><code class=""x"" class=""poetry"">y</code></pre>").
Proof.
  split; [|vm_compute; reflexivity]. exists (B "<pre><code>x</code></pre>"), (B "<pre><code class=""language-c"">y</code></pre>"). split; [apply absent; reflexivity|]. split; [vm_compute; reflexivity|reflexivity].
Qed.
Print Assumptions C205_refuted.
Theorem C205_exact html : exists h, Poem html h /\ add_poetry html = Out h.
Proof. destruct (poem_total html) as [h R]. exists h. split; [exact R|exact (poetry_spec html h R)]. Qed.
Print Assumptions C205_exact.
Theorem C205_partial html : ~ has (B "language-") html -> exists h, Marked html h /\ add_poetry html = Out h.
Proof. intros N. destruct (poem_total html) as [h R]. exists h. split; [exact (poem_marked _ _ R N)|exact (poetry_spec html h R)]. Qed.
Print Assumptions C205_partial.
Example C205_case : add_poetry (B "<p>a</p><pre><code>x</code></pre>") = Out (B "<p>a</p><pre><code class=""poetry"">x</code></pre>") /\ ~ has (B "language-") (B "<p>a</p><pre><code>x</code></pre>").
Proof. split; [vm_compute; reflexivity|apply absent; reflexivity]. Qed.

(** * C206: only paragraphs of spaces and zero-width spaces are removed *)
Theorem C206_cleaned html : Cleaned html (drop_empty html).
Proof. apply paragraphs_cleaned. apply Nat.lt_succ_diag_r. Qed.
Print Assumptions C206_cleaned.
Theorem C206_unique html h : Cleaned html h -> h = drop_empty html.
Proof. intros C. symmetry. apply (cleaned_unique _ _ C). apply Nat.lt_succ_diag_r. Qed.
Print Assumptions C206_unique.
Example C206_case : drop_empty (B "<p>a</p><p> &#8203;" ++ [NL] ++ B "</p><p>b &#8203;</p>") = B "<p>a</p><p>b &#8203;</p>" /\ Blank (B " &#8203;" ++ [NL]).
Proof. split; [vm_compute; reflexivity|]. apply (Bl_white SP); [left; reflexivity|]. apply Bl_entity. apply (Bl_white NL []); [right; right; left; reflexivity|constructor]. Qed.

(** * C207: no paragraph without visible text remains *)
Theorem C207_refuted : drop_empty (B "<p></p>") = B "<p></p>" /\ drop_empty (B "<p class=""x"">&#8203;</p>") = B "<p class=""x"">&#8203;</p>".
Proof. split; vm_compute; reflexivity. Qed.
Print Assumptions C207_refuted.

(** * C208: the title is the text of the first h1 *)
Theorem C208_title html t : first_h1 html = Some t <-> first_heading html t.
Proof. exact (h1_spec html t). Qed.
Print Assumptions C208_title.
Example C208_case : first_h1 (B "<p>x</p><h1 id=""a""> A <em>b</em> </h1><h1>C</h1>") = Some (B "A b") /\ first_h1 (B "<h1></h1><h1>C</h1>") = None.
Proof. split; vm_compute; reflexivity. Qed.

(** * C209: one page break before the footnotes, nothing else *)
Theorem C209_none html : ~ has section html -> break_notes html = html.
Proof. exact (break_none html). Qed.
Print Assumptions C209_none.
Theorem C209_first a r : ~ has section a -> break_notes (a ++ section ++ r) = a ++ notes_break ++ section ++ r.
Proof. exact (break_first a r). Qed.
Print Assumptions C209_first.
Example C209_case : break_notes (B "<p>x</p>" ++ section ++ B ">y</section>") = B "<p>x</p>" ++ notes_break ++ section ++ B ">y</section>" /\ ~ has section (B "<p>x</p>").
Proof. split; [vm_compute; reflexivity|apply absent; reflexivity]. Qed.
