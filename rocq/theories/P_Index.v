(** C246-C257: entries for the index, their anchors and the index (src/extensions/index.c). *)
From Coq Require Import Sorting.Permutation Sorting.Sorted.
From Verif Require Import Base BaseL Dec L_Pass L_Syntax M_Index S_Front S_Index L_Front L_Index.

(** C246. For every text, set of syntaxes and registry: nothing is written beyond the buffer; either the text is left as it is, or it is copied with some entries replaced by marks, numbered one after the other, and exactly these entries are registered, each with its number and place. *)
Theorem C246_marks o text reg :
  process o text reg = Same \/
  exists t l new, process o text reg = Out t (Registry (new ++ r_entries reg) (r_next reg + length l))
    /\ Marked (r_next reg) 0 text t l /\ map (fun e => (e_id e, e_pos e)) (rev new) = l /\ map fst l = seq (r_next reg) (length l).
Proof.
  destruct (process_marked o text reg) as [H|(t & l & new & H & M & E)]; [left; exact H|right]. exists t, l, new. split; [exact H|]. split; [exact M|]. split; [exact E|exact (marked_seq _ _ _ _ _ M)].
Qed.
Print Assumptions C246_marks.

Example C246_case : exists new, process all_on (B "see (!a) and b{^x} end") (Registry [] 3) = Out (B "see <!--IDX:idxref-3--> and b<!--IDX:idxref-4--> end") (Registry new 5)
  /\ map (fun e => (e_item e, e_id e, e_pos e)) new = [(B " and b", 4, 14); (B "a", 3, 4)].
Proof. eexists. split; vm_compute; reflexivity. Qed.

(** C247. In a text in which whatever begins like an entry has one of the documented forms, exactly the entries are replaced, and each is registered with the item, the subitem and the rank that is written. *)
Theorem C247_forms n text t l reg : Indexed [] n text t l -> r_next reg = n -> l <> [] ->
  exists new, process all_on text reg = Out t (Registry (new ++ r_entries reg) (n + length l)) /\ map (fun e => (e_item e, e_sub e, e_primary e)) (rev new) = l.
Proof. apply process_indexed. Qed.
Print Assumptions C247_forms.

Lemma solid_word c r d q : isspace c = false -> isspace d = false -> c :: r = q ++ [d] -> solid (c :: r).
Proof. intros C D E. split; [exists c, r; auto|exists d, q; auto]. Qed.

Example C247_case : exists t l, Indexed [] 0 (B "A (!!tea, green) {i: ""oat!dry""}.") t l /\ l = [(B "tea", Some (B "green"), true); (B "oat", Some (B "dry"), false)].
Proof.
  eexists _, _. split; [|reflexivity].
  apply (indexed_plain (B "A ")); [intro A; cbn in A; intuition discriminate..|].
  apply (indexed_entry _ _ (B "(!!tea, green)") (B "tea") (Some (B "green")) true).
  - apply (form_mmark_sub _ (B "tea") [] (B "green") (B " ") [] true); try (apply (solid_word _ _ "a" (B "te")); reflexivity); try (apply (solid_word _ _ "n" (B "gree")); reflexivity); repeat constructor; cbn; auto.
  - apply (indexed_plain (B " ")); [intro A; cbn in A; intuition discriminate..|].
    apply (indexed_entry _ _ (B "{i: ""oat!dry""}") (B "oat") (Some (B "dry")) false).
    + apply (form_quoted_sub _ (B " ") (B "oat") (B "dry") []); try (apply (solid_word _ _ "t" (B "oa")); reflexivity); try (apply (solid_word _ _ "y" (B "dr")); reflexivity); repeat constructor; cbn; try intuition discriminate; auto.
    + apply (indexed_plain (B ".")); [intro A; cbn in A; intuition discriminate..|]. constructor.
Qed.

(** C248. Code is not searched for entries: false. Whatever stands in a fence, a condition like (!name) is replaced, here for every name and all code around it. *)
Theorem C248_refuted a w b : ~ In "("%char a -> ~ In "{"%char a -> ~ In "("%char b -> ~ In "{"%char b -> solid w -> Forall term_byte w ->
  exists new, process all_on (B "```" ++ [NL] ++ a ++ B "(!" ++ w ++ B ")" ++ b ++ [NL] ++ B "```") (Registry [] 0)
    = Out (B "```" ++ [NL] ++ a ++ mark_of 0 ++ b ++ [NL] ++ B "```") (Registry [new] 1) /\ e_item new = w.
Proof.
  intros A1 A2 B1 B2 Sw F.
  assert (I : Indexed [] 0 ((B "```" ++ [NL] ++ a) ++ (B "(!" ++ w ++ B ")") ++ (b ++ [NL] ++ B "```")) ((B "```" ++ [NL] ++ a) ++ mark_of 0 ++ (b ++ [NL] ++ B "```")) [(w, None, false)]).
  { apply indexed_plain.
    - intro I. do 4 (destruct I as [I|I]; [discriminate I|]). contradiction.
    - intro I. do 4 (destruct I as [I|I]; [discriminate I|]). contradiction.
    - apply indexed_entry with (sub := None) (p := false) (item := w).
      + exact (form_mmark _ w [] false Sw F (Forall_nil _)).
      + rewrite <- (app_nil_r (b ++ [NL] ++ B "```")). apply indexed_plain; [| |constructor]; intro I; apply in_app_or in I; (destruct I as [I|I]; [contradiction|]); cbn in I; intuition discriminate. }
  destruct (process_indexed 0 _ _ _ (Registry [] 0) I eq_refl ltac:(discriminate)) as (new & E & M). cbn [r_entries length Nat.add] in E. rewrite app_nil_r in E.
  destruct new as [|e [|e' new]]; [discriminate M| |].
  - exists e. cbn [rev app map] in M. injection M as M _ _. split; [|exact M]. rewrite <- !app_assoc in E. exact E.
  - apply (f_equal (@length _)) in M. rewrite map_length, rev_length in M. discriminate M.
Qed.
Print Assumptions C248_refuted.

Example C248_case : exists new, process all_on (B "```" ++ [NL] ++ B "if (!ready) return;" ++ [NL] ++ B "```") (Registry [] 0) = Out (B "```" ++ [NL] ++ B "if <!--IDX:idxref-0--> return;" ++ [NL] ++ B "```") (Registry [new] 1) /\ e_item new = B "ready".
Proof. eexists. split; vm_compute; reflexivity. Qed.

(** Without the openings of the three syntaxes a text, code or not, is left alone. *)
Theorem C248_partial o text reg : ~ within (B "(!") text -> ~ within (B "{^") text -> ~ within (B "{i:") text -> process o text reg = Same.
Proof. apply process_plain. Qed.
Print Assumptions C248_partial.

(** C249. Terms are registered without spaces around them and are not blank: false. *)
Theorem C249_refuted :
  (exists t e, process all_on (B "(! a)") (Registry [] 0) = Out t (Registry [e] 1) /\ e_item e = B " a")
  /\ (exists t e, process all_on (B "(!  )") (Registry [] 0) = Out t (Registry [e] 1) /\ e_item e = B "  ")
  /\ (exists t e, process all_on (B "{i: """"}") (Registry [] 0) = Out t (Registry [e] 1) /\ e_item e = []).
Proof. repeat split; eexists _, _; split; vm_compute; reflexivity. Qed.
Print Assumptions C249_refuted.

(** What holds: with the mmark and TextIndex syntaxes a term is never empty, and unless it is blank no space follows it. *)
Theorem C249_partial m x text reg out reg' : process (Syntaxes m x false) text reg = Out out reg' ->
  exists new, r_entries reg' = new ++ r_entries reg /\ Forall (fun e => e_item e <> [] /\ (whites (e_item e) \/ exists r c, e_item e = r ++ [c] /\ isspace c = false)) new.
Proof. unfold process. destruct (quick _ text); [|discriminate]. apply go_neat. Qed.
Print Assumptions C249_partial.

Example C249_case : exists t e, process (Syntaxes true true false) (B "(!tea  , green)") (Registry [] 0) = Out t (Registry [e] 1) /\ e_item e = B "tea" /\ e_sub e = Some (B "green").
Proof. eexists _, _. repeat split; vm_compute; reflexivity. Qed.

(** C250. "word{^}" registers the word before the brace: false. The words before it on the line belong to the term. *)
Theorem C250_refuted w1 w2 : w1 <> [] -> w2 <> [] -> Forall (fun c => isalnum c = true) w1 -> Forall (fun c => isalnum c = true) w2 -> length w1 + length w2 < 50 ->
  exists e, process all_on (w1 ++ SP :: w2 ++ B "{^}") (Registry [] 0) = Out (w1 ++ SP :: w2 ++ mark_of 0) (Registry [e] 1) /\ e_item e = w1 ++ SP :: w2.
Proof.
  intros N1 N2 F1 F2 L.
  assert (A : forall c, isalnum c = true -> isspace c = false /\ c <> "("%char /\ c <> "{"%char).
  { intros c H. split; [|split; intros ->; discriminate H]. pose proof (byte_forall (fun c => implb (isalnum c) (negb (isspace c))) eq_refl c) as G. cbv beta in G. rewrite H in G. apply Bool.negb_true_iff. exact G. }
  assert (St : solid (w1 ++ SP :: w2)).
  { destruct w1 as [|c r]; [congruence|]. inversion F1; subst. destruct (last_cases w2) as [->|(q & d & ->)]; [congruence|]. apply Forall_app in F2. destruct F2 as [_ F2]. inversion F2; subst.
    split; [exists c, (r ++ SP :: q ++ [d]); split; [reflexivity|now apply A]|exists d, ((c :: r) ++ SP :: q); split; [rewrite <- app_assoc; reflexivity|now apply A]]. }
  assert (Fp : Forall phrase_byte (w1 ++ SP :: w2)).
  { apply Forall_app. split; [eapply Forall_impl; [|exact F1]; intros c H; left; exact H|]. constructor; [right; left; reflexivity|]. eapply Forall_impl; [|exact F2]. intros c H. left. exact H. }
  assert (Np : forall c, c = "("%char \/ c = "{"%char -> ~ In c (w1 ++ SP :: w2)).
  { intros c C I. rewrite Forall_forall in Fp. destruct (Fp c I) as [H|[H|[H|H]]]; [destruct (A c H) as (_ & X & Y); destruct C; contradiction|destruct C; subst; discriminate..]. }
  assert (I : Indexed [] 0 ((w1 ++ SP :: w2) ++ B "{^}" ++ []) ((w1 ++ SP :: w2) ++ mark_of 0 ++ []) [(w1 ++ SP :: w2, None, false)]).
  { apply indexed_plain; [apply Np; auto|apply Np; auto|]. apply indexed_entry with (sub := None) (p := false) (item := w1 ++ SP :: w2); [|constructor].
    apply (form_word [] (w1 ++ SP :: w2) [] None St Fp); [rewrite app_length; cbn [length]; lia|left; reflexivity|intros []|intros []|]. constructor; intros []. }
  destruct (process_indexed 0 _ _ _ (Registry [] 0) I eq_refl ltac:(discriminate)) as (new & E & M). cbn [r_entries length Nat.add] in E. rewrite !app_nil_r in E.
  destruct new as [|e [|e' new]]; [discriminate M| |].
  - exists e. cbn [rev app map] in M. injection M as M _ _. split; [|exact M]. rewrite <- !app_assoc in E. exact E.
  - apply (f_equal (@length _)) in M. rewrite map_length, rev_length in M. discriminate M.
Qed.
Print Assumptions C250_refuted.

(** What holds: a word that follows another byte than a letter, a digit, a space, '-' or '_' is the term; a term in brackets is the term. *)
Theorem C250_partial before c w s : ~ phrase_byte c -> w <> [] -> Forall (fun c => isalnum c = true) w -> length w <= 50 -> exists p,
  parsed all_on (rev (before ++ [c] ++ w)) (B "{^}" ++ s) = Some (w, None, p, s).
Proof.
  intros C N F L. exists false.
  assert (A : forall c, isalnum c = true -> isspace c = false).
  { intros d H. pose proof (byte_forall (fun c => implb (isalnum c) (negb (isspace c))) eq_refl d) as G. cbv beta in G. rewrite H in G. apply Bool.negb_true_iff. exact G. }
  assert (St : solid w) by (apply solid_nonwhite; [exact N|]; eapply Forall_impl; [|exact F]; intros d; apply A).
  rewrite app_assoc. change (B "{^}" ++ s) with ((B "{^" ++ [] ++ B "}") ++ s). apply form_parsed. apply (form_word (before ++ [c]) w [] None St); [|exact L| |intros []|intros []|constructor; intros []].
  - eapply Forall_impl; [|exact F]. intros d H. left. exact H.
  - right. exists before, c. auto.
Qed.
Print Assumptions C250_partial.

Theorem C250_bracket_partial before term s : solid term -> ~ In "["%char term -> length term < 200 ->
  parsed all_on (rev (before ++ B "[" ++ term ++ B "]")) (B "{^}" ++ s) = Some (term, None, false, s).
Proof.
  intros St N L. change (B "{^}" ++ s) with ((B "{^" ++ [] ++ B "}") ++ s). apply form_parsed. apply (form_bracket before term [] None St N L); [intros []|intros []|constructor; intros []].
Qed.
Print Assumptions C250_bracket_partial.

Example C250_case : parsed all_on (rev (B "the (tea")) (B "{^}, x") = Some (B "tea", None, false, B ", x") /\ parsed all_on (rev (B "the tea")) (B "{^}, x") = Some (B "the tea", None, false, B ", x").
Proof. split; vm_compute; reflexivity. Qed.

(** C251. Rendering the marks stays inside the HTML and inside the buffer: false. An unfinished mark makes the reading go on behind the end, and for empty HTML the closing NUL is outside. *)
Theorem C251_refuted : (forall html, open_mark html -> render html = Over) /\ render [] = Outside.
Proof.
  split; [|reflexivity]. intros html O. assert (N : html <> []) by (intros ->; destruct O as (a & r & E & _); destruct a; discriminate E).
  exact (proj1 (spans_over _ html _ (Nat.lt_succ_diag_r _) (start_sound html N)) O).
Qed.
Print Assumptions C251_refuted.

(** All other HTML is rendered safely. *)
Theorem C251_partial html : html <> [] -> ~ open_mark html -> exists t, render html = Page t.
Proof. intros N O. exact (proj2 (spans_over _ html _ (Nat.lt_succ_diag_r _) (start_sound html N)) O). Qed.
Print Assumptions C251_partial.

Example C251_case : open_mark (B "<p>x</p> <!--IDX:a") /\ ~ open_mark (B "<!--IDX:a--> b").
Proof.
  split; [exists (B "<p>x</p> "), (B "a"); split; [reflexivity|]; cbn; intuition discriminate|].
  intros (a & r & E & N). destruct a as [|c a].
  - injection E as E. apply N. rewrite <- E. cbn. auto 10.
  - injection E as _ E. assert (I : In "<"%char (B "!--IDX:a--> b")) by (cbn [B list_ascii_of_string]; rewrite E; apply in_or_app; right; left; reflexivity). cbn in I. intuition discriminate.
Qed.

(** C252. Marks become anchors and all other HTML is unchanged: false. A comment that begins like a mark and is not one loses its text. *)
Theorem C252_refuted a x b : ~ In "<"%char a -> ~ In "<"%char b -> ~ In ">"%char x -> ~ (exists y, x = y ++ B "--") ->
  render (a ++ B "<!--IDX:" ++ x ++ B ">" ++ b) = Page (a ++ B ">" ++ b).
Proof. apply render_lost. Qed.
Print Assumptions C252_refuted.

(** HTML in which "<!--IDX:" begins nothing but marks comes out with an anchor for each mark and everything else unchanged. *)
Theorem C252_partial html t l : Anchored html t l -> html <> [] -> render html = Page t.
Proof. intros A N. exact (render_anchored _ _ _ A N). Qed.
Print Assumptions C252_partial.

Example C252_case : Anchored (B "a" ++ mark_of 7 ++ B "b") (B "a" ++ anchor_of 7 ++ B "b") [7] /\ render (B "x<!--IDX:y>z") = Page (B "x>z").
Proof.
  split; [|vm_compute; reflexivity]. apply (anchored_app (B "a")); [cbn; intuition discriminate|]. constructor; [vm_compute; lia|]. apply (anchored_app (B "b") ltac:(cbn; intuition discriminate) [] [] []). constructor.
Qed.

(** C253. For every text without a mark of its own and every registry: when the marks that the entries leave are rendered, each entry that was registered has exactly one anchor, and there are no others; so every link of the index has its target. *)
Theorem C253_links o text reg t reg' : ~ within (B "<!--IDX:") text -> (forall i, i < r_next reg' -> length (name_of i) < 64) -> process o text reg = Out t reg' ->
  exists h new, render t = Page h /\ r_entries reg' = new ++ r_entries reg /\ Anchored t h (map e_id (rev new)) /\ NoDup (map e_id new).
Proof.
  intros N D H. destruct (C246_marks o text reg) as [E|(t' & l & new & E & M & Ids & Sq)]; [congruence|]. rewrite H in E. injection E as <- ->. cbn [r_next r_entries] in *.
  assert (El : map e_id (rev new) = map fst l) by (rewrite <- Ids, map_map; reflexivity).
  destruct (marked_anchored _ _ _ _ _ M N) as (h & A).
  { apply Forall_forall. intros i I. apply D. rewrite Sq in I. apply in_seq in I. lia. }
  assert (Nt : t <> []).
  { intros ->. inversion M; subst. unfold process in H. destruct (quick o []) eqn:Q; [|discriminate H]. now apply quick_nonempty in Q. }
  exists h, new. split; [exact (render_anchored _ _ _ A Nt)|]. split; [reflexivity|]. rewrite El. split; [exact A|].
  rewrite <- (rev_involutive new), map_rev. apply NoDup_rev. rewrite El, Sq. apply seq_NoDup.
Qed.
Print Assumptions C253_links.

Example C253_case : exists t reg', process all_on (B "a (!b) c") (Registry [] 0) = Out t reg' /\ render t = Page (B "a <span class=""index"" id=""idxref-0""></span> c").
Proof. eexists _, _. split; vm_compute; reflexivity. Qed.

(** C254. The comparison handed to qsort orders all entries consistently: it is antisymmetric and transitive, and it puts items in alphabetical order whatever their case, an entry without subitem first. *)
Theorem C254_order : (forall a b, compare b a = CompOpp (compare a b)) /\ (forall a b c, compare a b <> Gt -> compare b c <> Gt -> compare a c <> Gt)
  /\ (forall a b, compare a b <> Gt <-> line_upto (e_item a, e_sub a) (e_item b, e_sub b)).
Proof.
  split; [exact compare_flip|]. split; [|exact compare_upto]. intros a b c H1 H2. apply compare_upto in H1, H2. apply compare_upto. exact (line_trans _ _ _ H1 H2).
Qed.
Print Assumptions C254_order.

Example C254_case : compare (Entry (B "apple") None false 0 0) (Entry (B "Apple") (Some (B "pie")) false 9 1) = Lt /\ compare (Entry (B "Zoo") None false 0 0) (Entry (B "apple") None false 0 1) = Gt.
Proof. split; reflexivity. Qed.

(** C255. The index shows every entry once, in alphabetical order, with its link: false. A term is not escaped, one of more than 2042 bytes is cut, and one that begins with a space comes before all others. *)
Theorem C255_refuted :
  (exists t e, process all_on (B "{i: ""<b>""}") (Registry [] 0) = Out t (Registry [e] 1)
    /\ index_html false [e] = Some (index_page (flat (fun x => x) [(B "<b>", None, false, 0)])))
  /\ (forall x y n, length x = 2042 -> length (name_of n) < 64 -> index_html false [Entry (x ++ y) None false 0 n] = Some (index_page (flat (fun x => x) [(x, None, false, n)])))
  /\ (exists t a b, process all_on (B "(!apple) (! zebra)") (Registry [] 0) = Out t (Registry [b; a] 2) /\ e_item a = B "apple" /\ e_item b = B " zebra" /\ compare b a = Lt).
Proof.
  split; [eexists _, _; split; vm_compute; reflexivity|]. split; [|eexists _, _, _; repeat split; vm_compute; reflexivity].
  intros x y n L Ln. rewrite index_exact. f_equal. unfold appended, index_page, flat. cbn [map concat shown item_html e_item e_sub e_primary e_id app]. rewrite (link_exact (Entry (x ++ y) None false 0 n) Ln).
  replace (firstn 2047 _) with (B "<li>" ++ [NL] ++ x).
  - unfold nl. cbn [e_id]. rewrite <- ?app_assoc, ?app_nil_r. cbn [app]. rewrite <- ?app_assoc. reflexivity.
  - change (B "<li>" ++ NL :: x ++ y) with (B "<li>" ++ [NL] ++ x ++ y). rewrite !app_assoc. symmetry. apply L_Syntax.take_front. rewrite !app_length. cbn [length B list_ascii_of_string]. lia.
Qed.
Print Assumptions C255_refuted.

(** For terms of at most 2042 bytes without < > & and quotes, and whatever way qsort sorts: the page has exactly one line for each entry, in order. *)
Theorem C255_partial es es' : Permutation es es' -> StronglySorted (fun a b => compare a b <> Gt) es' -> Forall fair es ->
  exists ls, index_html false es' = Some (index_page (flat escape ls)) /\ Permutation (map as_line es) ls /\ StronglySorted (fun a b => line_upto (fst (fst a)) (fst (fst b))) ls.
Proof.
  intros P S F. assert (F' : Forall fair es') by (apply Forall_forall; intros e I; rewrite Forall_forall in F; apply F; apply Permutation_in with es'; [now apply Permutation_sym|exact I]).
  exists (map as_line es'). split; [exact (flat_exact es' F')|]. split; [apply Permutation_map; exact P|].
  clear - S. induction S as [|e l S IH Fa]; cbn [map]; constructor; [exact IH|]. apply Forall_forall. intros x I. apply in_map_iff in I. destruct I as (e' & <- & I). rewrite Forall_forall in Fa. apply compare_upto. exact (Fa e' I).
Qed.
Print Assumptions C255_partial.

Example C255_case : let a := Entry (B "tea") None false 0 0 in let b := Entry (B "Oats") (Some (B "dry")) true 9 1 in
  Permutation [a; b] [b; a] /\ StronglySorted (fun a b => compare a b <> Gt) [b; a] /\ Forall fair [a; b].
Proof.
  cbv zeta. split; [apply perm_swap|]. split; [repeat constructor; vm_compute; discriminate|].
  repeat constructor; try (vm_compute; lia); cbn; intuition discriminate.
Qed.

(** C256. Grouped by letter, every letter has one group: false. *)
Theorem C256_refuted : let e x n := Entry x None false 0 n in
  StronglySorted (fun a b => compare a b <> Gt) [e (B "-b") 0; e (B "a") 1; e (B "b") 2]
  /\ index_html true [e (B "-b") 0; e (B "a") 1; e (B "b") 2] = Some (index_page (concat (map (group escape) [("B"%char, [(B "-b", None, false, 0)]); ("A"%char, [(B "a", None, false, 1)]); ("B"%char, [(B "b", None, false, 2)])]))).
Proof. cbv zeta. split; [repeat constructor; vm_compute; discriminate|vm_compute; reflexivity]. Qed.
Print Assumptions C256_refuted.

(** True when every item begins with a letter or a digit: the page is a list of groups with different letters, each entry is in the group of its letter, and the order is kept. *)
Theorem C256_partial es : es <> [] -> StronglySorted (fun a b => compare a b <> Gt) es -> Forall fair es -> Forall (fun e => exists c r, e_item e = c :: r /\ isalnum c = true) es ->
  exists gs, es = concat (map snd gs) /\ NoDup (map fst gs) /\ Forall (fun g => snd g <> [] /\ Forall (fun e => first_letter (e_item e) (fst g)) (snd g)) gs
    /\ index_html true es = Some (index_page (concat (map (group escape) (map (fun g => (fst g, map as_line (snd g))) gs)))).
Proof.
  intros N S F A. assert (K : StronglySorted (fun a b => (key a <= key b)%N) es).
  { clear - S A. induction S as [|e l S IH Fa]; constructor; inversion A as [|? ? (c & r & E & C) A']; subst; [exact (IH A')|]. apply Forall_forall. intros x I. rewrite Forall_forall in Fa, A'.
    destruct (A' x I) as (d & q & E' & D). apply (upto_key e x c d r q E C E' D). exact (proj1 (proj1 (compare_upto e x) (Fa x I))). }
  destruct (groups_exact es N F K) as (gs & E & G & ND & H). exists gs. split; [exact E|]. split; [exact ND|]. split; [|exact H].
  eapply Forall_impl; [|exact G]. intros g [G1 G2]. split; [exact G1|]. eapply Forall_impl; [|exact G2]. intros e <-. apply letter_first.
Qed.
Print Assumptions C256_partial.

Example C256_case : let e x n := Entry x None false 0 n in let es := [e (B "Apple") 0; e (B "apricot") 1; e (B "bean") 2] in
  StronglySorted (fun a b => compare a b <> Gt) es /\ Forall fair es /\ Forall (fun e => exists c r, e_item e = c :: r /\ isalnum c = true) es.
Proof.
  cbv zeta. split; [repeat constructor; vm_compute; discriminate|]. split; [repeat constructor; try (vm_compute; lia); cbn; intuition discriminate|].
  repeat constructor; cbn [e_item B list_ascii_of_string]; eexists _, _; split; reflexivity.
Qed.

(** C257. The index goes to the first <!--INDEX-->, which it replaces; without one, before the first </body>; without that, to the end. Everything else is unchanged. *)
Theorem C257_place html index : Placed index html (insert html index).
Proof. apply insert_placed. Qed.
Print Assumptions C257_place.

Example C257_case : insert (B "a<!--INDEX-->b") (B "I") = B "aIb" /\ insert (B "a</body>b") (B "I") = B "aI</body>b" /\ insert (B "ab") (B "I") = B "abI".
Proof. repeat split; vm_compute; reflexivity. Qed.
