(** C87-C92: heading texts and ids. *)
From Verif Require Import Base BaseL M_Toc S_Toc M_HeadIds S_HeadIds L_HeadIds L_HeadIds2.
From Verif Require M_Ids S_Ids P_Ids.

(** ** C87: the text of a heading *)
(** The full claim: all text of the heading, and no byte stored outside the block. *)
Definition C87_full : Prop := forall l, w_out (heading_text l) = concat (map text_of l) /\ w_oob (heading_text l) = false.
(** It fails: the text of emphasis and links is missing, and the block grows only once. *)
Theorem C87_refuted : ~ C87_full.
Proof. intro H. destruct (H [Txt (B "a "); Other (B "b")]) as [E _]. vm_compute in E. discriminate. Qed.
Print Assumptions C87_refuted.
Theorem C87_text_partial l : Forall plain_piece l -> w_out (heading_text l) = concat (map text_of l).
Proof.
  intro F. rewrite heading_text_out. f_equal. apply map_ext_in. intros p I. rewrite Forall_forall in F. apply F in I. destruct p; [reflexivity|reflexivity|destruct I].
Qed.
Print Assumptions C87_text_partial.
(** With more than 511 bytes the block is overrun, whatever the parts are; and only then. *)
Theorem C87_memory_partial l : Forall plain_piece l ->
  (w_oob (heading_text l) = false <-> length (concat (map text_of l)) <= 511).
Proof. intro F. rewrite heading_text_safe. rewrite <- (heading_text_out l), (C87_text_partial l F). reflexivity. Qed.
Print Assumptions C87_memory_partial.
Theorem C87_memory_refuted s : 512 <= length s -> w_oob (heading_text [Txt s]) = true.
Proof.
  intro L. destruct (w_oob (heading_text [Txt s])) eqn:E; [reflexivity|]. exfalso.
  apply (C87_memory_partial [Txt s] ltac:(repeat constructor)) in E. cbn [map concat text_of] in E. rewrite app_nil_r in E. lia.
Qed.
Print Assumptions C87_memory_refuted.
Example C87_case : w_out (heading_text [Txt (B "Use "); Code (B "x"); Txt (B " now")]) = B "Use x now" /\
  w_oob (heading_text [Txt (repeat "x"%char 300); Code (repeat "y"%char 211)]) = false.
Proof. split; vm_compute; reflexivity. Qed.

(** ** C88: ids written in headings *)
(** The heading ends in an id in brackets if and only if one is found, and then the
    text is what is before, without the white space. *)
Theorem C88_exact text q i : manual_id text = Some (q, i) <-> written text q i.
Proof. exact (manual_spec text q i). Qed.
Print Assumptions C88_exact.
(** The full claim: the attribute made of it has just this id. *)
Definition C88_attribute_full : Prop := forall text q i, manual_id text = Some (q, i) -> attr_id (id_attr i) = Some i.
(** It fails: a quote in the id ends the value, and further attributes can be put in. *)
Theorem C88_attribute_refuted : ~ C88_attribute_full.
Proof. intro H. specialize (H (B "T [a"" onclick=""b]") (B "T") (B "a"" onclick=""b") ltac:(vm_compute; reflexivity)). vm_compute in H. discriminate. Qed.
Print Assumptions C88_attribute_refuted.
Theorem C88_attribute_partial text q i : manual_id text = Some (q, i) -> ~ In DQ i -> attr_id (id_attr i) = Some i.
Proof.
  intros M N. apply manual_spec in M. unfold id_attr. apply (attr_id_first [] i []).
  - exact N.
  - now destruct M.
  - intros x y _. cbn. lia.
Qed.
Print Assumptions C88_attribute_partial.
(** A heading must not become empty; it does if there is nothing but the id. *)
Definition C88_empty_full : Prop := forall text q i, manual_id text = Some (q, i) -> q <> [].
Theorem C88_empty_refuted : ~ C88_empty_full.
Proof. intro H. apply (H (B "[Preface]") [] (B "Preface")); vm_compute; reflexivity. Qed.
Print Assumptions C88_empty_refuted.
Example C88_case : manual_id (B "Setup [start] ") = Some (B "Setup", B "start") /\ manual_id (B "Setup  {#go}") = Some (B "Setup", B "go") /\
  manual_id (B "Setup [%title]") = None /\ manual_id (B "See [1] for more") = None.
Proof. vm_compute. auto. Qed.

(** ** C89: every heading gets its id, and nothing else changes *)
(** The full claim: the document is the same, with the ids put in. *)
Definition C89_full : Prop := forall anchors html ids o, ids <> [] -> titled anchors false ids html o ->
  exists w, inject anchors html ids = Some w /\ w_out w = o.
(** It fails: after a heading that has an id in the HTML already (such as one given in
    the text), the next heading gets the id of the one after it, and the last one none. *)
Definition three_headings : str := B "<h1 id=""x"">A</h1><h1>B</h1><h1>C</h1>".
Theorem C89_shift_refuted : exists w, inject false three_headings [B "x"; B "b"; B "c"] = Some w /\
  w_out w = B "<h1 id=""x"">A</h1><h1 id=""c"">B</h1><h1>C</h1>".
Proof. eexists. split; vm_compute; reflexivity. Qed.
Print Assumptions C89_shift_refuted.
Ltac no_tag := intros ? ? ? ? ? X; discriminate X.
Theorem C89_refuted : ~ C89_full.
Proof.
  intro H. destruct (H false (B "<h1 id=""x"">A</h1><h1>B</h1>") [B "x"; B "b"] (B "<h1 id=""x"">A</h1><h1 id=""b"">B</h1>")) as (w & E & O); [discriminate| |].
  - apply (t_old false false (B "x") [B "b"] "1"%char [] (B "x") [] (B "A</h1><h1>B</h1>")); [reflexivity|now left| | | |tauto|discriminate|].
    + split; [intros [I|[]]; discriminate|right; now exists SP, []].
    + intros (x & y & E). destruct x; discriminate.
    + split; [discriminate|]. constructor; [|constructor]. intros [I|[I|[I|[I|[]]]]]; discriminate.
    + do 6 (apply t_byte; [no_tag|]).
      apply (t_new false false (B "b") [] "1"%char [] (B "B</h1>")); [reflexivity|now left|split; [tauto|now left]| |].
      * intros (x & y & E). destruct x; discriminate.
      * do 6 (apply t_byte; [no_tag|]). constructor.
  - vm_compute in E. injection E as <-. vm_compute in O. discriminate.
Qed.
Print Assumptions C89_refuted.
(** Any attribute that ends in these letters is taken for the id. *)
Theorem C89_data_refuted : exists w, inject false (B "<h1 data-id=""7"">A</h1>") [B "a"] = Some w /\ w_out w = B "<h1 data-id=""a"">A</h1>".
Proof. eexists. split; vm_compute; reflexivity. Qed.
Print Assumptions C89_data_refuted.
(** The end of the document is lost if ids take more than a hundred bytes. *)
Theorem C89_cut_refuted : exists w, inject false (B "<h1>A</h1>") [repeat "a"%char 100] = Some w /\
  w_out w = B "<h1 id=""" ++ repeat "a"%char 100 ++ B """>".
Proof. eexists. split; vm_compute; reflexivity. Qed.
Print Assumptions C89_cut_refuted.
(** If no heading but the last has an id already, everything is as claimed exactly when there is
    room for it; ids that do not fit into the array of 512 bytes excluded. *)
Theorem C89_partial anchors html ids o : ids <> [] -> titled anchors true ids html o -> Forall (short anchors) ids ->
  exists w, inject anchors html ids = Some w /\ (w_out w = o <-> length o <= length html + 100 * length ids).
Proof. exact (inject_exact anchors html ids o). Qed.
Print Assumptions C89_partial.
(** Such an output exists if anchors are used or no tag of a heading has [id=] in it. *)
Theorem C89_exists anchors html ids :
  (anchors = true \/ forall x n a r, html = x ++ tag n a ++ r -> is_level n -> is_attrs a -> ~ has (B "id=") a) ->
  exists o, titled anchors true ids html o.
Proof. exact (titled_exists anchors true (length html) html ids (le_n _)). Qed.
Print Assumptions C89_exists.
(** For all inputs the function ends, and no byte is stored outside the block. *)
Theorem C89_safe anchors html ids : exists w, inject anchors html ids = Some w /\ w_oob w = false.
Proof. exact (inject_safe anchors html ids). Qed.
Print Assumptions C89_safe.
Example C89_case : exists w w', inject false (B "<h1>A</h1><h2 class=""c"">B</h2><hr>") [B "a"; B "b"] = Some w /\
  w_out w = B "<h1 id=""a"">A</h1><h2 class=""c"" id=""b"">B</h2><hr>" /\
  inject true (B "<h1>A</h1>") [B "a"] = Some w' /\
  w_out w' = B "<h1><a href=""#a"" aria-hidden=""true"" class=""anchor"" id=""a""></a>A</h1>".
Proof. do 2 eexists. split; [vm_compute; reflexivity|]. split; [vm_compute; reflexivity|]. split; vm_compute; reflexivity. Qed.

(** ** C90: links of the table of contents *)
(** The full claim: every entry links to the id of a heading. *)
Definition C90_full : Prop := forall idf doc h, In h (map (number idf) (collect doc)) -> In (h_id h) (map (heading_id idf) (headings doc)).
(** It fails: the table uses generated ids even for headings with an id of their own. *)
Theorem C90_refuted : ~ C90_full.
Proof.
  intro H. specialize (H (fun x => x) (Node (Some (1, B "a")) (Some (id_attr (B "b"))) []) (Hd 1 (B "a") (B "a")) ltac:(now left)).
  vm_compute in H. destruct H as [H|[]]. discriminate.
Qed.
Print Assumptions C90_refuted.
Theorem C90_partial idf doc : (forall h a, In (h, Some a) (preorder doc) -> ~ has (B "id=""") a) ->
  forall x, In x (collect doc) -> exists h, number idf x = h /\ h_level h = fst x /\ h_text h = snd x /\
    In (h_id h) (map (heading_id idf) (headings doc)).
Proof.
  intros H x I. exists (number idf x). repeat split. apply links_found; [exact H|]. now apply in_map.
Qed.
Print Assumptions C90_partial.
Example C90_case : map (fun h => h_id h) (map (number (fun x => x)) (collect (Node None None [Node (Some (1, B "a")) None []; Node (Some (2, B "b")) (Some (B " class=""c""")) []]))) = [B "a"; B "b"] /\
  map (heading_id (fun x => x)) (headings (Node None None [Node (Some (1, B "a")) None []; Node (Some (2, B "b")) (Some (B " class=""c""")) []])) = [B "a"; B "b"].
Proof. vm_compute. auto. Qed.

(** ** C91: ids are different *)
Definition id_of (f : M_Ids.id_format) (t : str) : str := match M_Ids.header_id P_Ids.table f t with Some (i, _) => i | None => [] end.
(** The full claim: different headings get different ids. *)
Definition C91_full (f : M_Ids.id_format) : Prop := forall doc, NoDup (map (heading_id (id_of f)) (headings doc)).
(** It fails in every format: two headings with the same text. *)
Theorem C91_refuted f : ~ C91_full f.
Proof.
  intro H. specialize (H (Node None None [Node (Some (1, B "a")) None []; Node (Some (1, B "a")) None []])).
  cbn [headings map app] in H. inversion H as [|? ? N _]. apply N. now left.
Qed.
Print Assumptions C91_refuted.
(** And for different texts. *)
Theorem C91_texts_refuted f : id_of f (B "A b") = id_of f (B "A  B") \/ id_of f (B "A b") = id_of f (B "a b").
Proof. right. destruct f; vm_compute; reflexivity. Qed.
Print Assumptions C91_texts_refuted.
(** Different texts of lower case letters and digits do get different ids (MultiMarkdown). *)
Definition lower_alnum (c : ascii) : Prop := isalnum c = true /\ tolower c = c /\ (code c < 128)%N.
Lemma id_same t : t <> [] -> Forall lower_alnum t -> id_of M_Ids.Mmd t = t.
Proof.
  intros N F. unfold id_of.
  pose proof (P_Ids.C21_mmd_partial P_Ids.table (map S_Ids.Asc t)) as H.
  assert (W : S_Ids.write_uchars (map S_Ids.Asc t) = t).
  { unfold S_Ids.write_uchars. rewrite map_map. clear. induction t as [|c t IH]; [reflexivity|]. cbn in *. now rewrite IH. }
  rewrite W in H. rewrite H.
  - assert (E : concat (map S_Ids.mmd_text (map S_Ids.Asc t)) = t).
    { rewrite map_map. clear - F. induction F as [|c t (A & L & _) _ IH]; [reflexivity|]. cbn [map concat]. rewrite IH. unfold S_Ids.mmd_text. now rewrite A, L. }
    rewrite E. destruct t; [congruence|reflexivity].
  - apply Forall_map. apply Forall_forall. intros c I. rewrite Forall_forall in F. destruct (F _ I) as (A & _ & C). split; [exact C|].
    intros ->. discriminate A.
Qed.
Theorem C91_partial doc : (forall h a, In (h, Some a) (preorder doc) -> ~ has (B "id=""") a) ->
  Forall (fun h => snd (fst h) <> [] /\ Forall lower_alnum (snd (fst h))) (preorder doc) ->
  NoDup (map (fun h => snd (fst h)) (preorder doc)) -> NoDup (map (heading_id (id_of M_Ids.Mmd)) (headings doc)).
Proof.
  intros H F N. rewrite ids_distinct by exact H.
  assert (E : map (fun h => id_of M_Ids.Mmd (snd (fst h))) (preorder doc) = map (fun h : nat * str * option str => snd (fst h)) (preorder doc)).
  { apply map_ext_in. intros h I. rewrite Forall_forall in F. destruct (F _ I) as [A B]. now apply id_same. }
  now rewrite E.
Qed.
Print Assumptions C91_partial.
Example C91_case : map (heading_id (id_of M_Ids.Mmd)) (headings (Node None None [Node (Some (1, B "a1")) None []; Node (Some (2, B "b")) None []])) = [B "a1"; B "b"].
Proof. vm_compute. reflexivity. Qed.
