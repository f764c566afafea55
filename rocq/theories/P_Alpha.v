(** C267-C274: lists with letters (src/apex.c 2001-2340). *)
From Verif Require Import Base BaseL Dec L_Pass M_Relax S_Relax L_Relax M_Alpha S_Alpha L_Alpha L_Alpha2.

Ltac itemc := apply marker_item; vm_compute; reflexivity.
Ltac noitem := apply marker_none; vm_compute; reflexivity.
Ltac nonl := repeat constructor; unfold no_nl; cbn; intuition discriminate.

(** C267. The pass that numbers the items writes only in its buffer and computes only with numbers that fit: false, for the empty text, for many short lists and for a line that starts with a long number. *)
Theorem C267_refuted : letters [] = Bad /\ letters (unlines (repeat (B "a.") 20)) = Bad /\ letters (unlines [B "a. tea"; B "99999999999 x"]) = Bad.
Proof. repeat split; vm_compute; reflexivity. Qed.
Print Assumptions C267_refuted.

(** True when no line starts with more than nine digits and the result is shorter than three times the text. *)
Theorem C267_partial ls out : Forall no_nl ls -> Forall short_number ls -> Lettered ls out -> length (unlines out) < 3 * length (unlines ls) -> letters (unlines ls) <> Bad.
Proof. intros F S H L. rewrite (letters_exact ls out F S H L). discriminate. Qed.
Print Assumptions C267_partial.

Example C267_case : let ls := [B "a. some oats"; B "b. some barley"] in let out := [B "[apex-alpha-list:lower]"; []; B "1.  some oats"; B "2.  some barley"] in
  Forall no_nl ls /\ Forall short_number ls /\ Lettered ls out /\ length (unlines out) < 3 * length (unlines ls).
Proof.
  cbv zeta. split; [nonl|]. split; [constructor; [|constructor; [|constructor]]; [apply (item_short _ [] "a" (B " some oats"))|apply (item_short _ [] "b" (B " some barley"))]; itemc|]. split; [|vm_compute; lia].
  apply (items_lettered "a" "b"). apply (items_next "a" 1 _ [] (B " some oats") "b"); [itemc|exists lowers, 0; repeat split; auto|]. apply (items_one "b" 2 _ [] (B " some barley")). itemc.
Qed.

(** C268. A text without items, not empty, stays as it is. *)
Theorem C268_kept ls t : Forall no_nl ls -> no_nl t -> unlines ls ++ t <> [] -> Forall no_item ls -> no_item t -> letters (unlines ls ++ t) = Text (unlines ls ++ t).
Proof.
  intros F T Z N Nt. unfold letters. rewrite (cut_text ls t F T). destruct (plain_feed ls t N Nt start eq_refl eq_refl) as [E1 E2]. cbv zeta in E1, E2. cbn [start a_out app] in E1.
  assert (L : 0 < length (unlines ls ++ t)) by (destruct (unlines ls ++ t); [congruence|cbn; lia]).
  rewrite fold_fits by (rewrite E1; lia). rewrite E1, E2. cbn [orb]. destruct (Nat.leb_spec (length (unlines ls ++ t) * 3) (length (unlines ls ++ t))); [lia|reflexivity].
Qed.
Print Assumptions C268_kept.

Example C268_case : Forall no_item [B "A line."; B "ab. no item"] /\ no_item (B "the end") /\ letters (unlines [B "A line."; B "ab. no item"] ++ B "the end") = Text (unlines [B "A line."; B "ab. no item"] ++ B "the end").
Proof. split; [repeat (constructor; [noitem|]); constructor|]. split; [noitem|vm_compute; reflexivity]. Qed.

(** C269. Every run of items gets its sign, so that it is shown with letters: false for every short text with one item. *)
Theorem C269_refuted c r : In c (lowers ++ uppers) -> rest_ok r -> no_nl r -> 1 <= length r <= 5 -> letters (unlines [c :: "."%char :: r]) = Text (unlines [numbered 1 [] r]).
Proof.
  intros C R N L. assert (Cut := cut_text [c :: "."%char :: r] []). rewrite app_nil_r in Cut. unfold letters. rewrite Cut; [|constructor; [|constructor]; intros [X|[X|X]]; [subst c; apply letter_bool in C; discriminate C|discriminate X|contradiction]|intros []]. cbn [map app fold_left].
  assert (It : item (c :: "."%char :: r) [] c r) by (split; [reflexivity|split; [constructor|split; [exact C|exact R]]]).
  unfold line_step. rewrite (proj2 (marker_item _ _ _ _) It). unfold item_step. cbn [start a_in andb a_out a_bad a_number].
  assert (Ln : length (unlines [c :: "."%char :: r]) = length r + 3) by (rewrite unlines_len; cbn; lia). rewrite Ln.
  assert (P1 : print ((length r + 3) * 3) (mark_line (isupper c)) [] = []).
  { unfold print. destruct (Nat.ltb_spec (length (mark_line (isupper c))) ((length r + 3) * 3 - length (A := ascii) [])) as [H|H]; [exfalso|reflexivity]. destruct (isupper c); cbn [mark_line app length B list_ascii_of_string] in H; lia. }
  rewrite P1. assert (E : copy ((length r + 3) * 3) (r ++ [NL]) (print ((length r + 3) * 3) ([] ++ dec 1 ++ B ". ") []) = unlines [numbered 1 [] r]).
  { rewrite print_fits by (change (length ([] ++ [] ++ dec 1 ++ B ". ")) with 3; lia). rewrite copy_fits; [unfold unlines, numbered; cbn [map concat app]; rewrite ?app_nil_r, <- ?app_assoc; reflexivity|]. rewrite !app_length. change (length (dec 1)) with 1. cbn [length B list_ascii_of_string]. lia. }
  rewrite E. cbn [orb]. destruct (Nat.leb_spec ((length r + 3) * 3) (length (unlines [numbered 1 [] r]))) as [H|H]; [exfalso|reflexivity]. rewrite unlines_len in H. unfold numbered in H. rewrite !app_length in H. change (length (dec 1)) with 1 in H. cbn in H. lia.
Qed.
Print Assumptions C269_refuted.
Example C269_refuted_case : letters (unlines [B "a. tea"]) = Text (unlines [B "1.  tea"]).
Proof. vm_compute. reflexivity. Qed.

(** The exact result when it is shorter than three times the text: a sign before every run, the items numbered from 1, everything else unchanged. *)
Theorem C269_partial ls out : Forall no_nl ls -> Forall short_number ls -> Lettered ls out -> length (unlines out) < 3 * length (unlines ls) -> letters (unlines ls) = Text (unlines out).
Proof. apply letters_exact. Qed.
Print Assumptions C269_partial.

Example C269_case : let ls := [B "Some text."; []; B "  B. barley and oats"; []; B "1. more of it"] in
  let out := [B "Some text."; []; B "[apex-alpha-list:upper]"; []; B "  1.  barley and oats"; []; []; []; B " "; []; B "1. more of it"] in Lettered ls out /\ letters (unlines ls) = Text (unlines out).
Proof.
  cbv zeta. split; [|vm_compute; reflexivity]. apply lettered_line; [noitem|]. apply lettered_line; [noitem|].
  apply (lettered_one "B" "B" [B "  B. barley and oats"] [B "  1.  barley and oats"] [] (B "1. more of it") [] []); [|constructor| |constructor].
  - apply (items_one "B" 1 _ (B "  ") (B " barley and oats")). itemc.
  - exists [], [], (B " more of it"). split; [reflexivity|]. split; [constructor|]. split; [constructor|]. right. exists SP, (B "more of it"). auto.
Qed.

(** C270. An item is shown with the letter it is written with: false for a list that does not start with a or A. *)
Theorem C270_refuted c r : In c (lowers ++ uppers) -> c <> "a"%char -> c <> "A"%char -> rest_ok r -> no_nl r -> 11 <= length r ->
  letters (unlines [c :: "."%char :: r]) = Text (unlines [sign c; []; numbered 1 [] r]) /\ shown c 1 <> Some c.
Proof.
  intros C Na NA R N L. assert (It : item (c :: "."%char :: r) [] c r) by (split; [reflexivity|split; [constructor|split; [exact C|exact R]]]). split.
  - apply letters_exact.
    + constructor; [|constructor]. intros [X|[X|X]]; [subst c; apply letter_bool in C; discriminate C|discriminate X|contradiction].
    + constructor; [exact (item_short _ _ _ _ It)|constructor].
    + apply (items_lettered c c). apply items_one. exact It.
    + assert (Ls : length (sign c) = 23) by (unfold sign; destruct (in_dec ascii_dec c uppers); reflexivity). rewrite !unlines_len, Ls. unfold numbered. rewrite !app_length. change (length (dec 1)) with 1. cbn [length unlines map concat B list_ascii_of_string]. lia.
  - unfold shown. destruct (in_dec ascii_dec c uppers); cbn; congruence.
Qed.
Print Assumptions C270_refuted.
Example C270_refuted_case : letters (unlines [B "c. some barley"]) = Text (unlines [B "[apex-alpha-list:lower]"; []; B "1.  some barley"]) /\ shown "c" 1 = Some "a"%char.
Proof. split; vm_compute; reflexivity. Qed.

(** True for lists a, b, c, ... of at most 26 items. *)
Theorem C270_partial al rs c0 : al = lowers \/ al = uppers -> nth_error al 0 = Some c0 -> Forall rest_ok rs -> Forall no_nl rs -> 1 <= length rs <= 26 ->
  let ls := map (fun p => fst p :: "."%char :: snd p) (combine al rs) in let out := sign c0 :: [] :: map (fun p => numbered (fst p) [] (snd p)) (combine (seq 1 (length rs)) rs) in
  length (unlines out) < 3 * length (unlines ls) -> letters (unlines ls) = Text (unlines out) /\ forall i c, nth_error al i = Some c -> shown c0 (i + 1) = Some c.
Proof.
  intros A N0 R Nn L ls out K. split.
  - destruct (al_items al rs A R ltac:(destruct rs; [cbn in L; lia|discriminate]) 0 c0 N0 ltac:(lia)) as (e & It). apply letters_exact; [exact (al_no_nl al rs A Nn)|exact (al_short al rs A R)| |exact K]. exact (items_lettered c0 e _ _ It).
  - intros i c N. unfold shown. replace (i + 1 - 1) with i by lia. destruct A as [-> | ->]; injection N0 as <-; destruct (in_dec ascii_dec _ uppers) as [I|I]; try exact N; exfalso; [apply upper_bool in I; discriminate I|apply I; cbn; auto].
Qed.
Print Assumptions C270_partial.

Example C270_case : let rs := [B " some oats"; B " some barley"; B " some more"] in Forall rest_ok rs /\ Forall no_nl rs /\
  letters (unlines (map (fun p => fst p :: "."%char :: snd p) (combine lowers rs))) = Text (unlines [B "[apex-alpha-list:lower]"; []; B "1.  some oats"; B "2.  some barley"; B "3.  some more"]).
Proof. cbv zeta. split; [repeat (constructor; [right; eexists _, _; split; [reflexivity|auto]|]); constructor|]. split; [nonl|vm_compute; reflexivity]. Qed.

(** C271. An item with a second paragraph does not end the list: false. What comes behind it starts again with 1. *)
Theorem C271_refuted w q d e r r' : item (w ++ d :: "."%char :: r) w d r -> follows d e -> item (w ++ e :: "."%char :: r') w e r' -> Forall no_nl [w ++ d :: "."%char :: r; q; w ++ e :: "."%char :: r'] -> no_item q -> ~ gaps q -> ~ one_line q -> short_number q -> 20 <= length r ->
  letters (unlines [w ++ d :: "."%char :: r; []; q; []; w ++ e :: "."%char :: r']) = Text (unlines [sign d; []; numbered 1 w r; []; q; []; sign e; []; numbered 1 w r']).
Proof.
  intros I F I' N Nq Gq Oq Sq L. inversion N as [|? ? N1 N2]; subst. inversion N2 as [|? ? N3 N4]; subst. inversion N4 as [|? ? N5 _]; subst. apply letters_exact.
  - repeat (constructor; [assumption || (intros [])|]). constructor.
  - constructor; [exact (item_short _ _ _ _ I)|]. constructor; [apply short_gaps; constructor|]. constructor; [exact Sq|]. constructor; [apply short_gaps; constructor|]. constructor; [exact (item_short _ _ _ _ I')|constructor].
  - apply (lettered_gap d d [w ++ d :: "."%char :: r] [numbered 1 w r] [] [q; []; w ++ e :: "."%char :: r'] [q; []; sign e; []; numbered 1 w r']).
    + apply items_one. exact I.
    + constructor.
    + right. left. exists q, [[]; w ++ e :: "."%char :: r']. auto.
    + apply lettered_line; [exact Nq|]. apply lettered_line; [apply gaps_no_item; constructor|]. apply (items_lettered e e). apply items_one. exact I'.
  - assert (Ls : forall c, length (sign c) = 23) by (intro c; unfold sign; destruct (in_dec ascii_dec c uppers); reflexivity). rewrite !unlines_len, !Ls. unfold numbered. rewrite !app_length. change (length (dec 1)) with 1. cbn [length unlines map concat B list_ascii_of_string]. lia.
Qed.
Print Assumptions C271_refuted.
Example C271_refuted_case : letters (unlines [B "a. some oats and so on"; []; B "    more"; []; B "b. some barley"]) = Text (unlines [B "[apex-alpha-list:lower]"; []; B "1.  some oats and so on"; []; B "    more"; []; B "[apex-alpha-list:lower]"; []; B "1.  some barley"]).
Proof. vm_compute. reflexivity. Qed.

(** True when the items follow one another with at most one blank line between them: one run, numbered without a break. *)
Theorem C271_partial c e its nums : Items c 1 e its nums -> Forall no_nl its -> Forall short_number its -> length (unlines (sign c :: [] :: nums)) < 3 * length (unlines its) -> letters (unlines its) = Text (unlines (sign c :: [] :: nums)).
Proof. intros H N S L. apply letters_exact; [exact N|exact S|exact (items_lettered c e its nums H)|exact L]. Qed.
Print Assumptions C271_partial.

Example C271_case : Items "y" 1 "a" [B "y. some oats"; []; B "z. some barley"; B "a. some more"] [B "1.  some oats"; []; B "2.  some barley"; B "3.  some more"]
  /\ letters (unlines [B "y. some oats"; []; B "z. some barley"; B "a. some more"]) = Text (unlines [B "[apex-alpha-list:lower]"; []; B "1.  some oats"; []; B "2.  some barley"; B "3.  some more"]).
Proof.
  split; [|vm_compute; reflexivity]. apply (items_gap "y" 1 _ [] (B " some oats") "z"); [itemc|constructor|exists lowers, 24; repeat split; auto|].
  apply (items_next "z" 2 _ [] (B " some barley") "a"); [itemc|exists lowers, 25; repeat split; auto|]. apply (items_one "a" 3 _ [] (B " some more")). itemc.
Qed.

(** C272. Lines in a fence stay as they are: false for every item in a fence. *)
Theorem C272_refuted w c r : item (w ++ c :: "."%char :: r) w c r -> no_nl (w ++ c :: "."%char :: r) -> 10 <= length r ->
  letters (unlines [B "```"; w ++ c :: "."%char :: r; B "```"]) = Text (unlines [B "```"; sign c; []; numbered 1 w r; B "```"]).
Proof.
  intros I N L. assert (Nf : no_item (B "```")) by noitem. assert (Fn : no_nl (B "```")) by (unfold no_nl; cbn; intuition discriminate). assert (Sf : short_number (B "```")) by (apply (short_plain [] "`" (B "``")); [constructor|reflexivity|reflexivity]). apply letters_exact.
  - repeat (constructor; [assumption|]). constructor.
  - constructor; [exact Sf|]. constructor; [exact (item_short _ _ _ _ I)|]. constructor; [exact Sf|constructor].
  - apply lettered_line; [exact Nf|]. apply (lettered_run c c [w ++ c :: "."%char :: r] [numbered 1 w r] [B "```"] [B "```"]); [apply items_one; exact I| |apply lettered_line; [exact Nf|constructor]].
    right. left. exists (B "```"), []. split; [reflexivity|]. split; [exact Nf|]. intro G. apply Forall_inv in G. destruct G; discriminate.
  - assert (Ls : length (sign c) = 23) by (unfold sign; destruct (in_dec ascii_dec c uppers); reflexivity). rewrite !unlines_len, Ls. unfold numbered. rewrite !app_length. change (length (dec 1)) with 1. cbn [length unlines map concat B list_ascii_of_string]. lia.
Qed.
Print Assumptions C272_refuted.
Example C272_refuted_case : letters (unlines [B "```"; B "a. some barley"; B "```"]) = Text (unlines [B "```"; B "[apex-alpha-list:lower]"; []; B "1.  some barley"; B "```"]).
Proof. vm_compute. reflexivity. Qed.

(** C273. No sign is left on the page: false for every run of items that follows a line of text, since the sign is then in the paragraph of this line, and there it stays. *)
Theorem C273_refuted : (forall t w c r, no_item t -> ~ gaps t -> no_nl t -> short_number t -> item (w ++ c :: "."%char :: r) w c r -> no_nl (w ++ c :: "."%char :: r) -> 14 <= length r ->
    letters (unlines [t; w ++ c :: "."%char :: r]) = Text (unlines [t; sign c; []; numbered 1 w r]))
  /\ forall html, ~ within (B "<p>[apex-alpha-list:") html -> styled html = Text html \/ styled html = Same.
Proof.
  split.
  - intros t w c r Nt Gt Tn St I N L. apply letters_exact.
    + repeat (constructor; [assumption|]). constructor.
    + constructor; [exact St|]. constructor; [exact (item_short _ _ _ _ I)|constructor].
    + apply lettered_line; [exact Nt|]. apply (items_lettered c c). apply items_one. exact I.
    + assert (Ls : length (sign c) = 23) by (unfold sign; destruct (in_dec ascii_dec c uppers); reflexivity). rewrite !unlines_len, Ls. unfold numbered. rewrite !app_length. change (length (dec 1)) with 1. cbn [length unlines map concat B list_ascii_of_string]. lia.
  - intros html W. destruct (styled_exact html html 0 (signed_end html W) ltac:(lia)) as [H|[H _]]; auto.
Qed.
Print Assumptions C273_refuted.
Example C273_refuted_case : letters (unlines [B "text"; B "a. oats, barley, rye"]) = Text (unlines [B "text"; B "[apex-alpha-list:lower]"; []; B "1.  oats, barley, rye"])
  /\ styled (B "<p>text [apex-alpha-list:lower]</p><ol><li>oats</li></ol>") = Text (B "<p>text [apex-alpha-list:lower]</p><ol><li>oats</li></ol>").
Proof. split; vm_compute; reflexivity. Qed.

(** True for pages in which every sign is a paragraph of its own before a list without a style, or before something that is no tag: all of them are gone, at most 146 of these lists get the style, and nothing else changes. *)
Theorem C273_partial html out k : Signed html out k -> k <= 146 -> styled html = Text out \/ styled html = Same /\ html = out.
Proof. apply styled_exact. Qed.
Print Assumptions C273_partial.

Example C273_case : let html := B "<h1>x</h1><p>[apex-alpha-list:upper]</p> <ol><li>oats</li></ol>" in Signed html (B "<h1>x</h1> <ol style=""list-style-type: upper-alpha""><li>oats</li></ol>") 1.
Proof.
  cbv zeta. change (B "<h1>x</h1><p>[apex-alpha-list:upper]</p> <ol><li>oats</li></ol>") with (B "<h1>x</h1>" ++ paragraph true ++ B " " ++ B "<ol" ++ [] ++ B ">" ++ B "<li>oats</li></ol>").
  change (B "<h1>x</h1> <ol style=""list-style-type: upper-alpha""><li>oats</li></ol>") with (B "<h1>x</h1>" ++ B " " ++ B "<ol" ++ [] ++ tag_style true ++ B "<li>oats</li></ol>").
  assert (W : forall x, strstr (B "<p>[apex-alpha-list:") x = None -> ~ within (B "<p>[apex-alpha-list:") x) by (intros x E (a & b & Q); exact (strstr_none _ _ E a b Q)).
  apply signed_list; [apply W; reflexivity|repeat constructor|left; reflexivity|intros []|intros (a & b & Q); destruct a; discriminate Q|]. apply signed_end. apply W. reflexivity.
Qed.

(** C274. The pass over the page reads and writes only in its buffers: false when a sign stands at the end of the page, when the last byte of the page is missing, and for a page with 178 signs that fills the buffer. *)
Theorem C274_refuted : (forall u w, Forall (fun c => In c [SP; TAB; NL; CR]) w -> styled (paragraph u ++ w) = Bad)
  /\ styled (B "<p>[apex-alpha-list:lower]</p") = Bad
  /\ styled (concat (repeat (paragraph false ++ B "<ol>") 172) ++ concat (repeat (paragraph false ++ B "x") 6) ++ repeat "x"%char 60) = Bad.
Proof.
  split; [|split; vm_compute; reflexivity]. intros u w F. unfold styled. destruct (strstr (B "[apex-alpha-list:") (paragraph u ++ w)) as [i|] eqn:E.
  - rewrite scan_mark. assert (Sp : span white w = (w, [])) by (apply span_all, whites_in, F). rewrite Sp. reflexivity.
  - exfalso. apply (strstr_none _ _ E (B "<p>") ((if u then B "upper" else B "lower") ++ B "]</p>" ++ w)). unfold paragraph. rewrite <- !app_assoc. reflexivity.
Qed.
Print Assumptions C274_refuted.

Theorem C274_partial html out k : Signed html out k -> k <= 146 -> styled html <> Bad.
Proof. intros H K. destruct (styled_exact html out k H K) as [-> |[-> _]]; discriminate. Qed.
Print Assumptions C274_partial.

Example C274_case : exists html out, Signed html out 0 /\ styled html = Text out /\ out = B "<p>a</p>b".
Proof.
  exists (B "<p>a</p>" ++ paragraph false ++ [] ++ "b"%char :: []), (B "<p>a</p>" ++ [] ++ "b"%char :: []). split; [|split; vm_compute; reflexivity].
  assert (W : forall x, strstr (B "<p>[apex-alpha-list:") x = None -> ~ within (B "<p>[apex-alpha-list:") x) by (intros x E (a & b & Q); exact (strstr_none _ _ E a b Q)).
  apply signed_bare; [apply W; reflexivity|constructor|cbn; intuition discriminate|]. apply signed_end. apply W. reflexivity.
Qed.
