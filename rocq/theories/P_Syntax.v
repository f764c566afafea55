(** C240-C245: highlighting of code blocks by external programs. *)
From Verif Require Import Base BaseL S_Pass L_Pass M_Syntax S_Syntax L_Syntax.

(** C240: the program is given the code as it was before it was escaped for HTML; for all code. *)
Theorem C240_code : forall s, unescape_html (escape s) = s.
Proof. intro s. apply unescape_escape. apply le_n. Qed.
Print Assumptions C240_code.

Example C240_case : escape (B "a && b <c> &lt; ""x""") = B "a &amp;&amp; b &lt;c&gt; &amp;lt; &quot;x&quot;" /\ unescape_html (escape (B "a && b <c> &lt; ""x""")) = B "a && b <c> &lt; ""x""".
Proof. split; vm_compute; reflexivity. Qed.

(** C241: code blocks become what the program makes of them, a block on which it fails stays, and everything else is as before.
    True whatever the size of the output when the program succeeds on every block. *)
Theorem C241_painted : forall sh t ln only ansi n html o,
  Shown only (fun lang code => sh (command t lang ln ansi) code) false n html o -> highlighted sh t ln only ansi html = Out o.
Proof.
  intros sh t ln only ansi n html o D. unfold highlighted. rewrite (shown_run sh t ln only ansi false n html o D); cbn [h_out h_bad h_cap length]; [reflexivity|lia|reflexivity|lia|discriminate].
Qed.
Print Assumptions C241_painted.

(** True with blocks that stay when the program writes less than twice the size of the document and 1024 bytes more. Missing for the full claim: larger output together with blocks that stay. *)
Theorem C241_partial : forall sh t ln only ansi n html o,
  Shown only (fun lang code => sh (command t lang ln ansi) code) true n html o -> n < 2 * length html + 1024 -> highlighted sh t ln only ansi html = Out o.
Proof.
  intros sh t ln only ansi n html o D N. unfold highlighted. rewrite (shown_run sh t ln only ansi true n html o D); cbn [h_out h_bad h_cap length]; [reflexivity|lia|reflexivity|lia|intros _; lia].
Qed.
Print Assumptions C241_partial.

Lemma two_blocks sh t ln only ansi x1 w1 y1 l1 c1 h x2 w2 y2 l2 c2 : let tool := fun lang code => sh (command t lang ln ansi) code in
  let block1 := block_text x1 w1 y1 (escape c1) in let block2 := block_text x2 w2 y2 (escape c2) in
  tag_end x1 -> gaps w1 -> ~ In ">"%char y1 -> Lang x1 y1 l1 -> tag_end x2 -> gaps w2 -> ~ In ">"%char y2 -> Lang x2 y2 l2 ->
  outcome only tool l1 c1 = Some h -> outcome only tool l2 c2 = None ->
  highlighted sh t ln only ansi (block1 ++ block2) = finish (paste block2 (put h {| h_cap := length (block1 ++ block2) * 3 + 1024; h_out := []; h_bad := false |})).
Proof.
  cbv zeta. intros T1 G1 N1 L1 T2 G2 N2 L2 E1 E2. unfold highlighted. pose proof (block_length x1 w1 y1 (escape c1)) as B1. pose proof (block_length x2 w2 y2 (escape c2)) as B2.
  assert (exists k, length (block_text x1 w1 y1 (escape c1) ++ block_text x2 w2 y2 (escape c2)) = S (S k)) as [k Ek].
  { rewrite app_length. destruct (length (block_text x1 w1 y1 (escape c1))) as [|[|a]]; [lia|lia|]. eexists. reflexivity. }
  rewrite Ek. rewrite (block_step sh t ln only ansi x1 w1 y1 l1 c1) by assumption. rewrite E1.
  rewrite <- (app_nil_r (block_text x2 w2 y2 (escape c2))) at 1. rewrite (block_step sh t ln only ansi x2 w2 y2 l2 c2) by assumption. rewrite E2. reflexivity.
Qed.

(** False in general: when the output on the first of two blocks leaves too little room, the second, on which the program fails, is gone from the document. *)
Theorem C241_refuted : forall sh t ln only ansi x1 w1 y1 l1 c1 h x2 w2 y2 l2 c2, let tool := fun lang code => sh (command t lang ln ansi) code in
  let block1 := block_text x1 w1 y1 (escape c1) in let block2 := block_text x2 w2 y2 (escape c2) in
  tag_end x1 -> gaps w1 -> ~ In ">"%char y1 -> Lang x1 y1 l1 -> tag_end x2 -> gaps w2 -> ~ In ">"%char y2 -> Lang x2 y2 l2 ->
  outcome only tool l1 c1 = Some h -> outcome only tool l2 c2 = None ->
  length h < 3 * length (block1 ++ block2) + 1024 < length h + length block2 ->
  highlighted sh t ln only ansi (block1 ++ block2) = Out h.
Proof.
  cbv zeta. intros sh t ln only ansi x1 w1 y1 l1 c1 h x2 w2 y2 l2 c2 T1 G1 N1 L1 T2 G2 N2 L2 E1 E2 L.
  rewrite (two_blocks sh t ln only ansi x1 w1 y1 l1 c1 h x2 w2 y2 l2 c2) by assumption.
  generalize dependent (length (block_text x1 w1 y1 (escape c1) ++ block_text x2 w2 y2 (escape c2))). intros k L.
  unfold paste, put, remaining. cbn [h_out h_cap h_bad length app]. rewrite (proj2 (Nat.leb_gt (k * 3 + 1024 - 0) (length h))) by lia. rewrite (proj2 (Nat.leb_gt _ _)) by lia.
  unfold finish. cbn [h_out h_cap h_bad orb]. rewrite (proj2 (Nat.leb_gt _ _)) by lia. reflexivity.
Qed.
Print Assumptions C241_refuted.

Example C241_case : let tool cmd code := if seq_ code (B "x") then Some (B "<b>" ++ code ++ B "</b>" ++ cmd) else None in
  highlighted tool Pygments false false false (B "a<pre lang=""py""><code>x</code></pre><pre><code class=""language-c"">y</code></pre>z") =
  Out (B "a<b>x</b>pygmentize -l py -f html<pre><code class=""language-c"">y</code></pre>z").
Proof. vm_compute. reflexivity. Qed.

(** C242: nothing is written beyond the output buffer. False: when the block that stays fills it to the last byte, the closing NUL is behind it. True under the conditions of C241_painted and C241_partial. *)
Theorem C242_refuted : forall sh t ln only ansi x1 w1 y1 l1 c1 h x2 w2 y2 l2 c2, let tool := fun lang code => sh (command t lang ln ansi) code in
  let block1 := block_text x1 w1 y1 (escape c1) in let block2 := block_text x2 w2 y2 (escape c2) in
  tag_end x1 -> gaps w1 -> ~ In ">"%char y1 -> Lang x1 y1 l1 -> tag_end x2 -> gaps w2 -> ~ In ">"%char y2 -> Lang x2 y2 l2 ->
  outcome only tool l1 c1 = Some h -> outcome only tool l2 c2 = None ->
  length h + length block2 = 3 * length (block1 ++ block2) + 1024 ->
  highlighted sh t ln only ansi (block1 ++ block2) = Bad.
Proof.
  cbv zeta. intros sh t ln only ansi x1 w1 y1 l1 c1 h x2 w2 y2 l2 c2 T1 G1 N1 L1 T2 G2 N2 L2 E1 E2 L.
  rewrite (two_blocks sh t ln only ansi x1 w1 y1 l1 c1 h x2 w2 y2 l2 c2) by assumption.
  pose proof (block_length x2 w2 y2 (escape c2)) as B2.
  generalize dependent (length (block_text x1 w1 y1 (escape c1) ++ block_text x2 w2 y2 (escape c2))). intros k L.
  unfold paste, put, remaining. cbn [h_out h_cap h_bad length app]. rewrite (proj2 (Nat.leb_gt (k * 3 + 1024 - 0) (length h))) by lia. rewrite (proj2 (Nat.leb_le _ _)) by lia.
  unfold finish. cbn [h_out h_cap h_bad orb]. rewrite (proj2 (Nat.leb_le _ _)) by (rewrite app_length; lia). reflexivity.
Qed.
Print Assumptions C242_refuted.

Theorem C242_partial : forall sh t ln only ansi keep n html o, Shown only (fun lang code => sh (command t lang ln ansi) code) keep n html o ->
  keep = false \/ n < 2 * length html + 1024 -> highlighted sh t ln only ansi html <> Bad.
Proof.
  intros sh t ln only ansi keep n html o D H. destruct keep.
  - destruct H as [H|H]; [discriminate H|]. rewrite (C241_partial _ _ _ _ _ _ _ _ D H). discriminate.
  - rewrite (C241_painted _ _ _ _ _ _ _ _ D). discriminate.
Qed.
Print Assumptions C242_partial.

Definition full : str := B "<pre><code>x</code></pre><pre><code>y</code></pre>".
Example C242_case : let big := repeat "b"%char 1149 in let tool (cmd code : str) := if seq_ code (B "x") then Some big else None in
  highlighted tool Pygments false false false full = Bad /\ highlighted tool Pygments false false false (full ++ [NL]) <> Bad.
Proof. cbv zeta. split; vm_compute; [reflexivity|discriminate]. Qed.

(** C243: a language in a document is an argument of the highlighter and nothing else. False: for all words [a] and [b] the language "a;b" makes the shell run the program [b], and its output is in the document. *)
Theorem C243_refuted : forall a b, Forall safe a -> Forall safe b -> a <> [] -> b <> [] -> length a + length b < 63 ->
  let lang := a ++ B ";" ++ b in
  commands (command Pygments lang false false) = [[B "pygmentize"; B "-l"; a]; [b; B "-f"; B "html"]]
  /\ commands (command Skylighting lang false false) = [[B "skylighting"; B "--syntax"; a]; [b; B "-f"; B "html"; B "-r"]]
  /\ commands (command Shiki lang false false) = [[B "shiki"; B "--lang"; a]; [b; B "--format"; B "html"]]
  /\ forall sh t ln only ansi code c h, sh (command t lang ln ansi) code = Some (c :: h) ->
     highlighted sh t ln only ansi (B "<pre lang=""" ++ lang ++ B """><code>" ++ escape code ++ B "</code></pre>") = Out (c :: h).
Proof.
  intros a b Fa Fb Na Nb L lang.
  assert (lang = a ++ ";"%char :: b) as El by reflexivity.
  assert (lang <> []) as Nl by (rewrite El; destruct a; discriminate).
  assert (forall x y : str, length x + length y < 440 -> firstn 511 (x ++ lang ++ y) = x ++ lang ++ y) as Fi.
  { intros x y Lxy. apply firstn_all2. rewrite El, !app_length. cbn [length]. lia. }
  assert (forall x y : str, ~ In ";"%char x -> ~ In ";"%char y -> commands (x ++ lang ++ y) = [words (x ++ a); words (b ++ y)]) as Co.
  { intros x y Nx Ny. rewrite El. assert (x ++ (a ++ ";"%char :: b) ++ y = (x ++ a) ++ ";"%char :: b ++ y) as -> by (rewrite <- !app_assoc; reflexivity). apply commands_two.
    - intro I. apply in_app_or in I. destruct I as [I|I]; [exact (Nx I)|exact (safe_semi a Fa I)].
    - intro I. apply in_app_or in I. destruct I as [I|I]; [exact (safe_semi b Fb I)|exact (Ny I)]. }
  split; [|split; [|split]].
  - unfold command. destruct lang as [|z lang'] eqn:Z; [destruct (Nl eq_refl)|]. cbv iota. change (B "pygmentize" ++ B " -l " ++ (z :: lang') ++ B " -f html") with (B "pygmentize -l " ++ (z :: lang') ++ B " -f html").
    rewrite Fi by (cbn; lia). rewrite Co by (vm_compute; intuition discriminate).
    change (B "pygmentize -l " ++ a) with (B "pygmentize" ++ SP :: B "-l" ++ SP :: a). rewrite !words_cons by (discriminate || (apply safe_check; reflexivity)). rewrite (words_one a Na Fa).
    change (b ++ B " -f html") with (b ++ SP :: B "-f html"). rewrite words_cons by assumption. reflexivity.
  - unfold command. destruct lang as [|z lang'] eqn:Z; [destruct (Nl eq_refl)|]. cbv iota. change (B "skylighting" ++ B " --syntax " ++ (z :: lang') ++ B " -f html -r") with (B "skylighting --syntax " ++ (z :: lang') ++ B " -f html -r").
    rewrite Fi by (cbn; lia). rewrite Co by (vm_compute; intuition discriminate).
    change (B "skylighting --syntax " ++ a) with (B "skylighting" ++ SP :: B "--syntax" ++ SP :: a). rewrite !words_cons by (discriminate || (apply safe_check; reflexivity)). rewrite (words_one a Na Fa).
    change (b ++ B " -f html -r") with (b ++ SP :: B "-f html -r"). rewrite words_cons by assumption. reflexivity.
  - unfold command. destruct lang as [|z lang'] eqn:Z; [destruct (Nl eq_refl)|]. cbv iota. change (B "shiki" ++ B " --lang " ++ (z :: lang') ++ B " --format " ++ B "html") with (B "shiki --lang " ++ (z :: lang') ++ B " --format html").
    rewrite Fi by (cbn; lia). rewrite Co by (vm_compute; intuition discriminate).
    change (B "shiki --lang " ++ a) with (B "shiki" ++ SP :: B "--lang" ++ SP :: a). rewrite !words_cons by (discriminate || (apply safe_check; reflexivity)). rewrite (words_one a Na Fa).
    change (b ++ B " --format html") with (b ++ SP :: B "--format html"). rewrite words_cons by assumption. reflexivity.
  - intros sh t ln only ansi code c h E.
    assert (forall d, d <> ";"%char -> (forall w, Forall safe w -> ~ In d w) -> ~ In d lang) as Nd.
    { intros d D1 D2 I. rewrite El in I. apply in_app_or in I. destruct I as [I|[I|I]]; [exact (D2 a Fa I)|congruence|exact (D2 b Fb I)]. }
    assert (forall d, isalnum d = false -> ~ In d (B "+-_./") -> forall w, Forall safe w -> ~ In d w) as Ns.
    { intros d D1 D2 w F I. rewrite Forall_forall in F. destruct (F d I) as [Q|Q]; [congruence|exact (D2 Q)]. }
    assert (~ In DQ lang) as Nq by (apply Nd; [discriminate|apply Ns; [reflexivity|vm_compute; intuition discriminate]]).
    assert (~ In ">"%char lang) as Ng by (apply Nd; [discriminate|apply Ns; [reflexivity|vm_compute; intuition discriminate]]).
    apply (C241_painted sh t ln only ansi (length (c :: h) + 0)).
    assert (B "<pre lang=""" ++ lang ++ B """><code>" ++ escape code ++ B "</code></pre>" = block_text (B " " ++ B "lang=" ++ [DQ] ++ lang ++ [DQ] ++ []) [] [] (escape code) ++ []) as ->.
    { rewrite block_shape, !app_nil_r. rewrite <- !app_assoc. reflexivity. }
    replace (c :: h) with ((c :: h) ++ []) at 2 by apply app_nil_r. apply (S_painted _ _ _ 0 _ _ _ lang).
    + split; [|right; eexists; reflexivity]. intro I. cbn [app B String.list_ascii_of_string] in I. repeat (destruct I as [I|I]; [discriminate I|]). apply in_app_or in I. destruct I as [I|[I|[]]]; [exact (Ng I)|discriminate I].
    + constructor.
    + intros [].
    + apply L_attr; [apply has_one|exact Nl|exact Nq|rewrite El, app_length; cbn [length]; lia].
    + unfold outcome. rewrite E. destruct only, lang; [destruct (Nl eq_refl)|reflexivity..].
    + constructor.
Qed.
Print Assumptions C243_refuted.

(** True of languages of letters, digits and the bytes + - _ . / : the shell runs one command, the highlighter, with the language as one argument. Missing for the full claim: all other bytes, which the shell may read in its own way. *)
Theorem C243_partial : forall lang (ln ansi : bool), Forall safe lang -> lang <> [] -> length lang < 64 ->
  commands (command Pygments lang ln ansi) = [[B "pygmentize"; B "-l"; lang; B "-f"; B "html"] ++ (if ln then [B "-O"; B "linenos=1"] else [])]
  /\ commands (command Skylighting lang ln ansi) = [[B "skylighting"; B "--syntax"; lang; B "-f"; B "html"; B "-r"] ++ (if ln then [B "-n"] else [])]
  /\ commands (command Shiki lang ln ansi) = [[B "shiki"; B "--lang"; lang; B "--format"; if ansi then B "ansi" else B "html"]].
Proof.
  intros lang ln ansi F N L.
  assert (forall x y : str, length x + length y < 440 -> firstn 511 (x ++ lang ++ y) = x ++ lang ++ y) as Fi by (intros x y Lxy; apply firstn_all2; rewrite !app_length; lia).
  assert (forall x y : str, ~ In ";"%char x -> ~ In ";"%char y -> commands (x ++ lang ++ y) = [words (x ++ lang ++ y)]) as Co.
  { intros x y Nx Ny. apply commands_one. intro I. apply in_app_or in I. destruct I as [I|I]; [exact (Nx I)|]. apply in_app_or in I. destruct I as [I|I]; [exact (safe_semi lang F I)|exact (Ny I)]. }
  assert (forall p o y, p <> [] -> Forall safe p -> o <> [] -> Forall safe o -> words ((p ++ SP :: o ++ [SP]) ++ lang ++ SP :: y) = p :: o :: lang :: words y) as W.
  { intros p o y Np Fp No Fo. assert ((p ++ SP :: o ++ [SP]) ++ lang ++ SP :: y = p ++ SP :: o ++ SP :: lang ++ SP :: y) as -> by (rewrite <- !app_assoc; cbn [app]; rewrite <- !app_assoc; reflexivity).
    rewrite !words_cons by assumption. reflexivity. }
  split; [|split]; unfold command; destruct lang as [|z l]; try (destruct (N eq_refl)); cbv iota zeta.
  - destruct ln.
    + change (B "pygmentize" ++ B " -l " ++ (z :: l) ++ B " -f html -O linenos=1") with ((B "pygmentize" ++ SP :: B "-l" ++ [SP]) ++ (z :: l) ++ SP :: B "-f html -O linenos=1").
      rewrite Fi by (cbn; lia). rewrite Co by (vm_compute; intuition discriminate). rewrite W by (discriminate || (apply safe_check; reflexivity)). reflexivity.
    + change (B "pygmentize" ++ B " -l " ++ (z :: l) ++ B " -f html") with ((B "pygmentize" ++ SP :: B "-l" ++ [SP]) ++ (z :: l) ++ SP :: B "-f html").
      rewrite Fi by (cbn; lia). rewrite Co by (vm_compute; intuition discriminate). rewrite W by (discriminate || (apply safe_check; reflexivity)). reflexivity.
  - destruct ln.
    + change (B "skylighting" ++ B " --syntax " ++ (z :: l) ++ B " -f html -r -n") with ((B "skylighting" ++ SP :: B "--syntax" ++ [SP]) ++ (z :: l) ++ SP :: B "-f html -r -n").
      rewrite Fi by (cbn; lia). rewrite Co by (vm_compute; intuition discriminate). rewrite W by (discriminate || (apply safe_check; reflexivity)). reflexivity.
    + change (B "skylighting" ++ B " --syntax " ++ (z :: l) ++ B " -f html -r") with ((B "skylighting" ++ SP :: B "--syntax" ++ [SP]) ++ (z :: l) ++ SP :: B "-f html -r").
      rewrite Fi by (cbn; lia). rewrite Co by (vm_compute; intuition discriminate). rewrite W by (discriminate || (apply safe_check; reflexivity)). reflexivity.
  - destruct ansi.
    + change (B "shiki" ++ B " --lang " ++ (z :: l) ++ B " --format " ++ B "ansi") with ((B "shiki" ++ SP :: B "--lang" ++ [SP]) ++ (z :: l) ++ SP :: B "--format ansi").
      rewrite Fi by (cbn; lia). rewrite Co by (vm_compute; intuition discriminate). rewrite W by (discriminate || (apply safe_check; reflexivity)). reflexivity.
    + change (B "shiki" ++ B " --lang " ++ (z :: l) ++ B " --format " ++ B "html") with ((B "shiki" ++ SP :: B "--lang" ++ [SP]) ++ (z :: l) ++ SP :: B "--format html").
      rewrite Fi by (cbn; lia). rewrite Co by (vm_compute; intuition discriminate). rewrite W by (discriminate || (apply safe_check; reflexivity)). reflexivity.
Qed.
Print Assumptions C243_partial.

Example C243_case : commands (command Pygments (B "c;reboot") false false) = [[B "pygmentize"; B "-l"; B "c"]; [B "reboot"; B "-f"; B "html"]]
  /\ commands (command Pygments (B "c++") false false) = [[B "pygmentize"; B "-l"; B "c++"; B "-f"; B "html"]].
Proof. split; vm_compute; reflexivity. Qed.

(** C244: the output of the program is read whole, however it comes in pieces, and the buffer is never left. *)
Theorem C244_output : forall chunks, Forall (fun x => length x <= 4096) chunks -> slurped chunks = Some (concat chunks).
Proof. intros chunks F. unfold slurped. rewrite slurp_all; [reflexivity|apply le_n|cbn [length]; lia|exact F]. Qed.
Print Assumptions C244_output.

Example C244_case : slurped [repeat "a"%char 4096; repeat "b"%char 4096; B "c"] = Some (repeat "a"%char 4096 ++ repeat "b"%char 4096 ++ B "c").
Proof. vm_compute. reflexivity. Qed.

(** C245: the exchange with the program comes to its end, for code of any size. True of a program that reads all of its input first: it never comes to a stop before all is read back, and no run goes on for ever. *)
Theorem C245_partial : forall K n s, 0 < K -> moves K false (before n) s -> p_got s = n \/ exists s', move K false s s'.
Proof.
  intros K n s HK M. apply lazy_inv in M. destruct s as [w i h o g]. cbn [p_left p_in p_held p_out p_got] in M.
  destruct (Nat.eq_dec g n) as [Q|Q]; [left; exact Q|right].
  destruct i as [|i]; [|eexists; apply m_take; discriminate].
  destruct w as [|w]; [|eexists; apply m_write; lia].
  destruct o as [|o]; [|eexists; apply m_read].
  destruct h as [|h]; [lia|]. eexists. apply m_give; [intros _; split; reflexivity|exact HK].
Qed.
Print Assumptions C245_partial.

Theorem C245_ends : exists weight : pipes -> nat, forall K eager s s', move K eager s s' -> weight s' < weight s.
Proof.
  exists (fun s => 4 * p_left s + 3 * p_in s + 2 * p_held s + p_out s). intros K eager s s' M. destruct M; cbn [p_left p_in p_held p_out]; lia.
Qed.
Print Assumptions C245_ends.

(** A program that answers every byte as it reads it gets as far as two pipes reach: up to 2K + 1 bytes it never comes to a stop either. *)
Theorem C245_eager_partial : forall K n s, 0 < K -> n <= 2 * K + 1 -> moves K true (before n) s -> p_got s = n \/ exists s', move K true s s'.
Proof.
  intros K n s HK Hn M. apply eager_inv in M. destruct s as [w i h o g]. cbn [p_left p_in p_held p_out p_got] in M.
  destruct (Nat.eq_dec g n) as [Q|Q]; [left; exact Q|right].
  destruct w as [|w].
  - destruct o as [|o]; [|eexists; apply m_read]. destruct h as [|h]; [|eexists; apply m_give; [discriminate|exact HK]].
    destruct i as [|i]; [lia|]. eexists. apply m_take. reflexivity.
  - destruct (Nat.lt_ge_cases i K) as [I|I]; [eexists; apply m_write; exact I|].
    destruct h as [|h]; [destruct i as [|i]; [lia|]; eexists; apply m_take; reflexivity|].
    eexists. apply m_give; [discriminate|]. lia.
Qed.
Print Assumptions C245_eager_partial.

(** With more input than that it is lost: whatever the order of events, the parent never gets to read a byte, and there is always input left that it cannot write. *)
Theorem C245_refuted : forall K n s, 2 * K + 1 < n -> moves K true (before n) s -> p_got s = 0 /\ 0 < p_left s.
Proof.
  intros K n s Hn M. remember (before n) as b eqn:Eb. induction M as [s|s s' s'' M IH St]; subst; [cbn; lia|]. specialize (IH eq_refl).
  apply eager_inv in M. destruct St; cbn [p_left p_in p_held p_out p_got] in *; lia.
Qed.
Print Assumptions C245_refuted.

Example C245_case : exists s, moves 1 true (before 4) s /\ (forall s', ~ move 1 true s s') /\ p_got s = 0.
Proof.
  exists {| p_left := 1; p_in := 1; p_held := 1; p_out := 1; p_got := 0 |}. split; [|split; [|reflexivity]].
  - eapply ms_more; [eapply ms_more; [eapply ms_more; [eapply ms_more; [eapply ms_more; [eapply ms_more; [apply ms_none|]|]|]|]|]|]; cbn.
    + apply m_write. lia.
    + apply m_take. reflexivity.
    + apply m_give; [discriminate|lia].
    + apply m_write. lia.
    + apply m_take. reflexivity.
    + apply m_write. lia.
  - intros s' M. inversion M; subst; lia.
Qed.
