(** Properties C126 and C127: formulas between dollar signs. *)
From Verif Require Import Base BaseL M_Md M_Math S_Math L_Math S_ManHtml L_ManHtml.

(** C126.  In full: exactly the formulas are recognised, and exactly their bytes are used.
    [forall s, (forall n lit, match_math s = Some (lit, n) -> (exists body rest, inline_formula s body rest /\ n = length body + 2) \/
       (exists body rest, display_formula s body rest /\ body <> [] /\ n = length body + 4)) /\
     (match_math s = None -> (forall body rest, ~ inline_formula s body rest) /\ (forall body rest, display_formula s body rest -> body = []))].
    Refuted: a backslash that is itself escaped hides the closing dollar sign. *)
Theorem C126_refuted : let s := B "$x" ++ [BS; BS] ++ B "$" in
  inline_formula s (B "x" ++ [BS; BS]) [] /\ match_math s = None.
Proof.
  split; [|vm_compute; reflexivity]. split; [reflexivity|]. split; [exists "x"%char, [BS; BS]; split; [reflexivity|split; [reflexivity|discriminate]]|].
  split; [exists (B "x" ++ [BS]), BS; split; reflexivity|]. split; [|reflexivity].
  intros a b E. exfalso. assert (J : In dollar (B "x" ++ [BS; BS])) by (rewrite E; apply in_or_app; right; left; reflexivity).
  repeat destruct J as [J|J]; try discriminate J. exact J.
Qed.
Print Assumptions C126_refuted.
Theorem C126_partial : forall s, single_escapes s ->
  (forall n lit, match_math s = Some (lit, n) -> (exists body rest, inline_formula s body rest /\ n = length body + 2) \/
    (exists body rest, display_formula s body rest /\ body <> [] /\ n = length body + 4)) /\
  (match_math s = None -> (forall body rest, ~ inline_formula s body rest) /\ (forall body rest, display_formula s body rest -> body = [])).
Proof. intros s SE. split; [intros n lit; apply match_some; exact SE|apply match_none; exact SE]. Qed.
Print Assumptions C126_partial.
(** What stands between double dollar signs is recognised without a guard. *)
Theorem C126_display : forall s n, n <> 0 ->
  (scan_dollar s = (n, true) <-> exists body rest, display_formula s body rest /\ n = length body + 4).
Proof. exact scan_display. Qed.
Print Assumptions C126_display.
Example C126_case : single_escapes (B "$a \$ b$ c$") /\ match_math (B "$a \$ b$ c$") = Some (B "<span class=" ++ [DQ] ++ B "math inline" ++ [DQ] ++ B ">\(a \$ b\)</span>", 8) /\
  match_math (B "$5 and $6") = None /\ match_math (B "$$ x $ y $$ z") = Some (B "<span class=" ++ [DQ] ++ B "math display" ++ [DQ] ++ B ">\[ x $ y \]</span>", 11).
Proof.
  split; [|vm_compute; auto]. intros a b E. do 11 (destruct a as [|? a]; [discriminate E|injection E as _ E]). destruct a; discriminate E.
Qed.

(** C127.  In full: the whole formula is shown, between the marks of its kind in a span of its class.
    [forall s body rest, inline_formula s body rest -> ~ In NUL body -> exists lit, match_math s = Some (lit, length body + 2) /\
       complete lit /\ text_of lit = B "\(" ++ body ++ B "\)" /\ tags_of lit = [B "span class=" ++ [DQ] ++ B "math inline" ++ [DQ]; B "/span"]].
    Refuted: the formula is not escaped, so that a less-than sign begins a tag. *)
Theorem C127_refuted : let s := B "$a<b$" in
  inline_formula s (B "a<b") [] /\ exists lit, match_math s = Some (lit, 5) /\ text_of lit = B "\(a".
Proof.
  split; [|eexists; split; [vm_compute; reflexivity|vm_compute; reflexivity]]. split; [reflexivity|].
  split; [exists "a"%char, (B "<b"); split; [reflexivity|split; [reflexivity|discriminate]]|].
  split; [exists (B "a<"), "b"%char; split; reflexivity|]. split; [|reflexivity].
  intros a b E. exfalso. assert (J : In dollar (B "a<b")) by (rewrite E; apply in_or_app; right; left; reflexivity).
  repeat destruct J as [J|J]; try discriminate J. exact J.
Qed.
Print Assumptions C127_refuted.
Theorem C127_partial : forall s body rest display, single_escapes s \/ display = true ->
  (if display then display_formula s body rest /\ body <> [] else inline_formula s body rest) ->
  ~ In NUL body -> ~ In "<"%char body -> ~ In "&"%char body ->
  exists lit, match_math s = Some (lit, length body + (if display then 4 else 2)) /\ complete lit /\
    text_of lit = (if display then B "\[" ++ body ++ B "\]" else B "\(" ++ body ++ B "\)") /\
    tags_of lit = [B "span class=" ++ [DQ] ++ (if display then B "math display" else B "math inline") ++ [DQ]; B "/span"].
Proof. exact match_shown. Qed.
Print Assumptions C127_partial.
(** Whatever the bytes of the formula, none of them is lost: the literal is the body between fixed marks. *)
Theorem C127_whole : forall s body rest, display_formula s body rest -> body <> [] -> ~ In NUL body ->
  exists lit a b, match_math s = Some (lit, length body + 4) /\ lit = a ++ body ++ b /\
    a = B "<span class=" ++ [DQ] ++ B "math display" ++ [DQ] ++ B ">\[" /\ b = B "\]</span>".
Proof. intros s body rest F B0 N0. exists (span_open true ++ body ++ span_close true), (span_open true), (span_close true). split; [exact (match_display s body rest F B0 N0)|]. split; [reflexivity|]. split; reflexivity. Qed.
Print Assumptions C127_whole.
Theorem C127_whole_inline : forall s body rest, single_escapes s -> inline_formula s body rest -> ~ In NUL body ->
  exists lit a b, match_math s = Some (lit, length body + 2) /\ lit = a ++ body ++ b /\
    a = B "<span class=" ++ [DQ] ++ B "math inline" ++ [DQ] ++ B ">\(" /\ b = B "\)</span>".
Proof. intros s body rest SE F N0. exists (span_open false ++ body ++ span_close false), (span_open false), (span_close false). split; [exact (match_inline s body rest SE F N0)|]. split; [reflexivity|]. split; reflexivity. Qed.
Print Assumptions C127_whole_inline.
Example C127_case : exists lit, match_math (B "$$E = mc^2$$ x") = Some (lit, 12) /\ text_of lit = B "\[E = mc^2\]".
Proof. eexists. split; [vm_compute; reflexivity|vm_compute; reflexivity]. Qed.
