(** Lemmas about the HTML man page: nesting for all trees, navigation, headline. *)
From Verif Require Import Base BaseL Dec L_Highlight M_Md L_Md M_Man M_ManHtml S_ManHtml L_ManHtml.

(** ** Nesting *)
Definition fine (s : str) : Prop := exists t u, bpart s t u.
Lemma fine_nil : fine [].
Proof. exists [], []. exact bpart_nil. Qed.
Lemma fine_app a b : fine a -> fine b -> fine (a ++ b).
Proof. intros (t1 & u1 & P1) (t2 & u2 & P2). do 2 eexists. exact (bpart_app _ _ _ _ _ _ P1 P2). Qed.
Lemma fine_of s t u : bpart s t u -> fine s.
Proof. intros P. exists t, u. exact P. Qed.
Lemma fine_esc s : fine (esc s).
Proof. exact (fine_of _ _ _ (bpart_of _ _ _ (part_esc s))). Qed.
Lemma fine_wrap t s : opening t -> ~ In ">"%char t -> fine s -> fine (B "<" ++ t ++ B ">" ++ s ++ B "</" ++ tag_name t ++ B ">").
Proof. intros O N (x & u & y & P & _). exact (fine_of _ _ _ (bpart_of _ _ _ (part_wrap t s y u O N P))). Qed.
Ltac fine_lit := eapply fine_of, bpart_of; lit.
Lemma fine_concat f (l : list node) : Forall (fun n => fine (f n)) l -> fine (concat (map f l)).
Proof. induction 1 as [|n l H _ IH]; [exact fine_nil|]. cbn [map concat]. apply fine_app; assumption. Qed.
Lemma fine_inline n : fine (inline_html n).
Proof.
  induction n as [k ch IH] using node_ind'. pose proof (fine_concat inline_html ch IH) as F. fold (inlines_html ch) in F. clear IH.
  rewrite inline_html_eq. destruct k; try exact F.
  - apply fine_esc.
  - fine_lit.
  - fine_lit.
  - apply (fine_wrap (B "code")); [reflexivity|cbn; intuition discriminate|apply fine_esc].
  - apply (fine_wrap (B "em")); [reflexivity|cbn; intuition discriminate|exact F].
  - apply (fine_wrap (B "strong")); [reflexivity|cbn; intuition discriminate|exact F].
  - destruct (opt url) as [|c u]; [exact F|]. destruct F as (x & v & y & P & _).
    exact (fine_of _ _ _ (bpart_of _ _ _ (part_link (c :: u) _ y v P))).
  - exact fine_nil.
Qed.
Lemma no_dl_eq k ch : no_dl (Node k ch) -> match k with HtmlBlock s => is_dl (opt s) = false | _ => Forall no_dl ch end.
Proof.
  intros H. cbn [no_dl] in H. destruct k; try (induction ch as [|c ch IH]; [constructor|destruct H as [H1 H2]; constructor; [exact H1|exact (IH H2)]]).
  unfold is_dl. destruct (span _ (opt literal)) as [a b] eqn:E. cbn [snd]. apply span_spec in E as (E1 & E2 & _).
  assert (S : forallb isspace a = true).
  { apply forallb_forall. intros c J. rewrite forallb_forall in E2. specialize (E2 c J). cbn in E2.
    apply orb_true_iff in E2 as [E2|E2]; [apply orb_true_iff in E2 as [E2|E2]|]; apply ceqs in E2 as ->; reflexivity. }
  assert (D : starts (B "<dl") b = false).
  { destruct (starts (B "<dl") b) eqn:D; [|reflexivity]. apply starts_spec in D as [r ->]. rewrite (H _ _ E1) in S. discriminate S. }
  destruct (starts (B "<dl>") b) eqn:D1; [apply starts_spec in D1 as [r ->]; discriminate D|].
  destruct (starts (B "<dl ") b) eqn:D2; [apply starts_spec in D2 as [r ->]; discriminate D|]. reflexivity.
Qed.
Lemma fine_blocks l : Forall (fun n => forall item, fine (block_html item n)) l -> forall item, fine (blocks item l).
Proof.
  intros F item. destruct F as [|n l H F]; [exact fine_nil|]. apply fine_app; [apply H|]. apply fine_concat.
  eapply Forall_impl; [|exact F]. intros m K. apply K.
Qed.
Lemma fine_block n : no_dl n -> forall item, fine (block_html item n).
Proof.
  induction n as [k ch IH] using node_ind'. intros T item. apply no_dl_eq in T.
  assert (F : forall item, Forall no_dl ch -> fine (blocks item ch)).
  { intros i G. apply fine_blocks. rewrite Forall_forall in *. intros c J. apply (IH c J), (G c J). }
  assert (I : fine (inlines_html ch)) by (apply fine_concat, Forall_forall; intros; apply fine_inline).
  rewrite block_html_eq. destruct k; try exact (F false T).
  - destruct I as (x & u & I). destruct item; [exact (fine_of _ _ _ (bpart_blank _ _ _ I))|exact (fine_of _ _ _ (bpart_p _ _ _ I))].
  - destruct I as (x & u & I). exact (fine_of _ _ _ (heading_bpart _ _ _ _ _ I)).
  - exact (fine_of _ _ _ (bpart_code _)).
  - destruct (F false T) as (x & u & P). eapply fine_of. group (B "blockquote"). exact P.
  - destruct (F false T) as (x & u & P). destruct ordered; eapply fine_of; [group (B "ol")|group (B "ul")]; exact P.
  - destruct (F true T) as (x & u & P). exact (fine_of _ _ _ (bpart_li _ _ _ P)).
  - fine_lit.
  - rewrite T. exact fine_nil.
Qed.
Lemma fine_reads s : fine s -> complete s /\ nested [] (tags_of s) /\ neutral (tags_of s).
Proof.
  intros (t & u & y & (e & R & _ & _ & N) & _). unfold complete, tags_of. rewrite R. cbn [fst snd].
  split; [reflexivity|]. split; [exact (neutral_nested _ N)|exact N].
Qed.

(** ** Reading parts one after the other *)
Lemma text_app a b : complete a -> text_of (a ++ b) = text_of a ++ text_of b.
Proof.
  intros C. unfold complete, text_of in *. destruct (run Tx a) as [m e] eqn:E. cbn in C. subst m.
  destruct (run Tx b) as [m2 e2] eqn:E2. rewrite (run_to _ _ _ _ _ _ _ E E2). cbn [snd]. apply shown_app.
Qed.
Lemma tags_of_app a b : complete a -> tags_of (a ++ b) = tags_of a ++ tags_of b.
Proof.
  intros C. unfold complete, tags_of in *. destruct (run Tx a) as [m e] eqn:E. cbn in C. subst m.
  destruct (run Tx b) as [m2 e2] eqn:E2. rewrite (run_to _ _ _ _ _ _ _ E E2). cbn [snd]. apply tags_app.
Qed.
Lemma complete_app a b : complete a -> complete b -> complete (a ++ b).
Proof.
  unfold complete. intros C D. destruct (run Tx a) as [m e] eqn:E. destruct (run Tx b) as [m2 e2] eqn:E2. cbn in C, D. subst.
  rewrite (run_to _ _ _ _ _ _ _ E E2). reflexivity.
Qed.
Lemma complete_esc s : complete (esc s).
Proof. unfold complete. rewrite run_esc. reflexivity. Qed.
Lemma tags_esc s : tags_of (esc s) = [].
Proof. unfold tags_of. rewrite run_esc. apply tags_ch. Qed.
Lemma complete_tag t : ~ In ">"%char t -> complete (B "<" ++ t ++ B ">").
Proof. intros N. unfold complete. rewrite (run_tag t N). reflexivity. Qed.
Lemma tags_tag t : ~ In ">"%char t -> tags_of (B "<" ++ t ++ B ">") = [t].
Proof. intros N. unfold tags_of. rewrite (run_tag t N). reflexivity. Qed.
Lemma text_tag t : ~ In ">"%char t -> text_of (B "<" ++ t ++ B ">") = [].
Proof. intros N. unfold text_of. rewrite (run_tag t N). reflexivity. Qed.

(** ** Navigation *)
Lemma esc_id s : forallb id_ok s = true -> esc s = s.
Proof.
  induction s as [|c s IH]; intros H; [reflexivity|]. cbn in H. apply andb_true_iff in H as [H1 H2].
  change (esc (c :: s)) with (esc1 c ++ esc s). rewrite (IH H2).
  replace (esc1 c) with [c]; [reflexivity|]. clear - H1. destruct c as [[] [] [] [] [] [] [] []]; try reflexivity; discriminate H1.
Qed.
Definition nav_tag (i : str) : str := B "a href=" ++ [DQ] ++ B "#" ++ i ++ [DQ].
Lemma nav_tag_ok i : forallb id_ok i = true -> opening (nav_tag i) /\ ~ In ">"%char (nav_tag i).
Proof.
  intros H. split; [reflexivity|]. unfold nav_tag. intros J.
  do 3 (apply in_app_or in J as [J|J]; [cbn in J; intuition discriminate|]).
  apply in_app_or in J as [J|J]; [exact (id_no ">"%char _ eq_refl H J)|cbn in J; intuition discriminate].
Qed.
Lemma nav_link_shape i l : i <> [] -> forallb id_ok i = true ->
  nav_link (i, l) = (B "<" ++ B "li" ++ B ">" ++ (B "<" ++ nav_tag i ++ B ">" ++ esc l ++ B "</" ++ tag_name (nav_tag i) ++ B ">") ++ B "</" ++ tag_name (B "li") ++ B ">") ++ [NL].
Proof.
  intros N H. unfold nav_link. cbn [fst snd]. destruct i as [|c i]; [contradiction|]. rewrite (esc_id _ H).
  change (tag_name (nav_tag (c :: i))) with (B "a"). change (tag_name (B "li")) with (B "li"). unfold nav_tag. rewrite <- !app_assoc. reflexivity.
Qed.
Lemma nav_link_fine i l : forallb id_ok i = true -> fine (nav_link (i, l)).
Proof.
  intros H. destruct i as [|c i]; [exact fine_nil|]. rewrite (nav_link_shape (c :: i) l) by (discriminate || exact H).
  apply fine_app; [|fine_lit]. apply fine_wrap; [reflexivity|cbn; intuition discriminate|].
  destruct (nav_tag_ok _ H) as [O N]. apply fine_wrap; [exact O|exact N|apply fine_esc].
Qed.
Lemma nav_link_tags i l : i <> [] -> forallb id_ok i = true -> tags_of (nav_link (i, l)) = [B "li"; nav_tag i; B "/a"; B "/li"] /\ text_of (nav_link (i, l)) = l ++ [NL].
Proof.
  intros N H. rewrite (nav_link_shape i l N H). destruct (nav_tag_ok _ H) as [_ M].
  change (tag_name (nav_tag i)) with (B "a"). change (tag_name (B "li")) with (B "li").
  replace ((B "<" ++ B "li" ++ B ">" ++ (B "<" ++ nav_tag i ++ B ">" ++ esc l ++ B "</" ++ B "a" ++ B ">") ++ B "</" ++ B "li" ++ B ">") ++ [NL]) with
    (B "<li>" ++ (B "<" ++ nav_tag i ++ B ">") ++ esc l ++ B "</a></li>" ++ [NL]) by (rewrite <- !app_assoc; reflexivity).
  pose proof (complete_tag _ M) as CM.
  rewrite (tags_of_app (B "<li>") _ eq_refl), (tags_of_app _ _ CM), (tags_of_app _ _ (complete_esc l)).
  rewrite (text_app (B "<li>") _ eq_refl), (text_app _ _ CM), (text_app _ _ (complete_esc l)).
  rewrite (tags_tag _ M), (text_tag _ M), tags_esc, text_esc. split; reflexivity.
Qed.
Lemma leads_app a b : leads (a ++ b) = leads a ++ leads b.
Proof. apply flat_map_app. Qed.
Lemma ids_app a b : ids (a ++ b) = ids a ++ ids b.
Proof. apply flat_map_app. Qed.
Lemma leads_nav i : leads [nav_tag i] = [i].
Proof.
  unfold leads. cbn [flat_map]. rewrite app_nil_r. change (starts (B "a href=" ++ [DQ] ++ B "#") (nav_tag i)) with true. cbv iota.
  change (skipn 9 (nav_tag i)) with (i ++ [DQ]). rewrite removelast_last. reflexivity.
Qed.
Definition nonempty (s : str) : bool := match s with [] => false | _ => true end.
Lemma cut_ok s : forallb id_ok s = true -> forallb id_ok (cut s) = true.
Proof.
  intros H. apply forallb_forall. intros c J. rewrite forallb_forall in H. apply H. unfold cut in J.
  rewrite <- (firstn_skipn 71 s). apply in_or_app. left. exact J.
Qed.
Definition entry (h : node) : str * str := (cut (section_id h), cut (plain_text h)).
Lemma sections_eq : forall n l, sections n l = firstn n (map entry (top_headings l)).
Proof.
  assert (Z : forall l, sections 0 l = []) by (intros l; destruct l; reflexivity).
  intros n l. revert n. induction l as [|[k ch] l IH]; intros n; [destruct n; reflexivity|]. destruct n as [|n]; [rewrite Z; reflexivity|].
  destruct k; try exact (IH (S n)). destruct level as [|[|level]]; try exact (IH (S n)).
  cbn [sections]. cbn [top_headings filter map firstn]. fold (top_headings l). rewrite IH. reflexivity.
Qed.
Definition links_of (l : list (str * str)) : list (str * str) := filter (fun e => nonempty (fst e)) l.
Lemma nav_links l : Forall (fun e => forallb id_ok (fst e) = true) l ->
  complete (concat (map nav_link l)) /\ leads (tags_of (concat (map nav_link l))) = map fst (links_of l) /\
  text_of (concat (map nav_link l)) = concat (map (fun e => snd e ++ [NL]) (links_of l)) /\ fine (concat (map nav_link l)).
Proof.
  induction 1 as [|[i t] l H _ (C & L & T & F)]; [split; [reflexivity|]; split; [reflexivity|]; split; [reflexivity|exact fine_nil]|].
  cbn [map concat]. cbn [fst] in H. destruct i as [|c i].
  - change (nav_link ([], t)) with (@nil ascii). cbn [app links_of filter nonempty fst]. auto.
  - pose proof (nav_link_fine (c :: i) t H) as F1. destruct (fine_reads _ F1) as (C1 & _ & _).
    destruct (nav_link_tags (c :: i) t ltac:(discriminate) H) as (E1 & E2).
    split; [exact (complete_app _ _ C1 C)|]. rewrite (tags_of_app _ _ C1), (text_app _ _ C1), E1, E2, leads_app, L, T.
    change (leads [B "li"; nav_tag (c :: i); B "/a"; B "/li"]) with (leads [nav_tag (c :: i)]).
    rewrite leads_nav. split; [reflexivity|]. split; [reflexivity|exact (fine_app _ _ F1 F)].
Qed.
Lemma entries_ok l : Forall (fun e => forallb id_ok (fst e) = true) (map entry l).
Proof. apply Forall_forall. intros e J. apply in_map_iff in J as (h & <- & _). cbn [fst entry]. apply cut_ok, section_id_ok. Qed.
Lemma firstn_Forall {A} (P : A -> Prop) n l : Forall P l -> Forall P (firstn n l).
Proof. intros F. apply Forall_forall. intros x J. rewrite Forall_forall in F. apply F. rewrite <- (firstn_skipn n l). apply in_or_app. left. exact J. Qed.
Lemma nav_shape l : l <> [] -> nav l = B "<" ++ (B "nav class=" ++ [DQ] ++ B "man-nav" ++ [DQ]) ++ B ">" ++
  (B "<" ++ B "ul" ++ B ">" ++ ([NL] ++ concat (map nav_link l)) ++ B "</" ++ tag_name (B "ul") ++ B ">") ++
  B "</" ++ tag_name (B "nav class=" ++ [DQ] ++ B "man-nav" ++ [DQ]) ++ B ">" ++ [NL].
Proof.
  intros N. unfold nav. destruct l; [contradiction|]. change (tag_name (B "ul")) with (B "ul").
  change (tag_name (B "nav class=" ++ [DQ] ++ B "man-nav" ++ [DQ])) with (B "nav"). rewrite <- !app_assoc. reflexivity.
Qed.
Lemma nav_ok n l : let s := firstn n (map entry (top_headings l)) in
  fine (nav (sections n l)) /\ leads (tags_of (nav (sections n l))) = map fst (links_of s) /\
  visible (text_of (nav (sections n l))) = visible (concat (map snd (links_of s))).
Proof.
  intros s. rewrite sections_eq. fold s. pose proof (firstn_Forall _ n _ (entries_ok (top_headings l))) as F. fold s in F.
  destruct (nav_links s F) as (C & L & T & G). destruct s as [|e s]; [split; [exact fine_nil|]; split; reflexivity|].
  set (x := concat (map nav_link (e :: s))) in *.
  assert (E : nav (e :: s) = (B "<nav class=" ++ [DQ] ++ B "man-nav" ++ [DQ] ++ B "><ul>" ++ [NL]) ++ x ++ B "</ul></nav>" ++ [NL]).
  { unfold nav. fold x. rewrite <- !app_assoc. reflexivity. }
  split.
  - rewrite nav_shape by discriminate. fold x.
    replace (B "<" ++ (B "nav class=" ++ [DQ] ++ B "man-nav" ++ [DQ]) ++ B ">" ++ (B "<" ++ B "ul" ++ B ">" ++ ([NL] ++ x) ++ B "</" ++ tag_name (B "ul") ++ B ">") ++
      B "</" ++ tag_name (B "nav class=" ++ [DQ] ++ B "man-nav" ++ [DQ]) ++ B ">" ++ [NL]) with
     ((B "<" ++ (B "nav class=" ++ [DQ] ++ B "man-nav" ++ [DQ]) ++ B ">" ++ (B "<" ++ B "ul" ++ B ">" ++ ([NL] ++ x) ++ B "</" ++ tag_name (B "ul") ++ B ">") ++
      B "</" ++ tag_name (B "nav class=" ++ [DQ] ++ B "man-nav" ++ [DQ]) ++ B ">") ++ [NL]) by (rewrite <- !app_assoc; reflexivity).
    apply fine_app; [|fine_lit]. apply fine_wrap; [reflexivity|cbn; intuition discriminate|].
    apply fine_wrap; [reflexivity|cbn; intuition discriminate|]. apply fine_app; [fine_lit|exact G].
  - rewrite E. pose (a := B "<nav class=" ++ [DQ] ++ B "man-nav" ++ [DQ] ++ B "><ul>" ++ [NL]). fold a.
    rewrite (tags_of_app a _ eq_refl), (tags_of_app x _ C), (text_app a _ eq_refl), (text_app x _ C). unfold a.
    split.
    + rewrite !leads_app, L. change (leads (tags_of (B "<nav class=" ++ [DQ] ++ B "man-nav" ++ [DQ] ++ B "><ul>" ++ [NL]))) with (@nil str).
      change (leads (tags_of (B "</ul></nav>" ++ [NL]))) with (@nil str). rewrite app_nil_r. reflexivity.
    + rewrite T, !visible_app. change (visible (text_of (B "<nav class=" ++ [DQ] ++ B "man-nav" ++ [DQ] ++ B "><ul>" ++ [NL]))) with (@nil ascii).
      change (visible (text_of (B "</ul></nav>" ++ [NL]))) with (@nil ascii). rewrite app_nil_r. cbn [app].
      clear. generalize (links_of (e :: s)). intros l. induction l as [|[i t] l IH]; [reflexivity|]. cbn [map concat snd].
      rewrite !visible_app, IH. cbn. rewrite app_nil_r. reflexivity.
Qed.

(** ** The ids of the body *)
Lemma ids_heading ch : ids (tags_of (block_html false (Node (Heading 1) ch))) = section_id (Node (Heading 1) ch) :: ids (tags_of (inlines_html ch)).
Proof.
  rewrite block_html_eq, heading_shape. destruct (heading_open_ok (Node (Heading 1) ch) 1) as (_ & N & _ & E).
  assert (I : fine (inlines_html ch)) by (apply fine_concat, Forall_forall; intros; apply fine_inline).
  destruct (fine_reads _ I) as (C & _ & _).
  replace ([NL] ++ (B "<" ++ div_open ++ B ">" ++ (B "<" ++ heading_open (Node (Heading 1) ch) 1 ++ B ">" ++ inlines_html ch ++ B "</" ++ tag_name (heading_open (Node (Heading 1) ch) 1) ++ B ">") ++ B "</" ++ tag_name div_open ++ B ">") ++ [NL]) with
    (([NL] ++ B "<" ++ div_open ++ B ">") ++ (B "<" ++ heading_open (Node (Heading 1) ch) 1 ++ B ">") ++ inlines_html ch ++ B "</h2></div>" ++ [NL]).
  - pose (a := [NL] ++ B "<" ++ div_open ++ B ">"). fold a. rewrite (tags_of_app a _ eq_refl), (tags_of_app _ _ (complete_tag _ N)), (tags_of_app _ _ C).
    unfold a. rewrite (tags_tag _ N), !ids_app.
    change (ids (tags_of ([NL] ++ B "<" ++ div_open ++ B ">"))) with (@nil str). change (ids (tags_of (B "</h2></div>" ++ [NL]))) with (@nil str).
    rewrite app_nil_r. cbn [app].
    change (section_id (Node (Heading 1) ch) :: ids (tags_of (inlines_html ch))) with ([section_id (Node (Heading 1) ch)] ++ ids (tags_of (inlines_html ch))). f_equal.
    unfold ids. cbn [flat_map]. rewrite app_nil_r. unfold heading_open. change (heading_tag 1) with (B "h2").
    change (starts (B "h2 id=" ++ [DQ]) (B "h2" ++ B " id=" ++ [DQ] ++ section_id (Node (Heading 1) ch) ++ [DQ])) with true. cbv iota.
    change (skipn 7 (B "h2" ++ B " id=" ++ [DQ] ++ section_id (Node (Heading 1) ch) ++ [DQ])) with (section_id (Node (Heading 1) ch) ++ [DQ]).
    rewrite removelast_last. reflexivity.
  - rewrite E. change (tag_name div_open) with (B "div"). change (heading_tag 1) with (B "h2"). rewrite <- !app_assoc. reflexivity.
Qed.
Lemma subseq_after {A} (c a b : list A) : subseq a b -> subseq a (c ++ b).
Proof. intros H. induction c as [|x c IH]; [exact H|apply subseq_skip; exact IH]. Qed.
Lemma subseq_filter {A} (f : A -> bool) (a b : list A) : subseq a b -> subseq (filter f a) b.
Proof.
  induction 1 as [l|x a b _ IH|x a b _ IH]; [constructor| |apply subseq_skip; exact IH].
  cbn [filter]. destruct (f x); [apply subseq_take|apply subseq_skip]; exact IH.
Qed.
Lemma subseq_firstn {A} n : forall a b : list A, subseq a b -> subseq (firstn n a) b.
Proof.
  induction n as [|n IH]; intros a b H; [constructor|]. induction H as [l|x a b H _|x a b _ IH2]; [constructor| |apply subseq_skip; exact IH2].
  cbn [firstn]. apply subseq_take, IH, H.
Qed.
Lemma body_ids l : Forall no_dl l -> complete (concat (map (block_html false) l)) /\
  subseq (map section_id (top_headings l)) (ids (tags_of (concat (map (block_html false) l)))).
Proof.
  induction 1 as [|[k ch] l H _ (C & IH)]; [split; [reflexivity|constructor]|]. cbn [map concat].
  destruct (fine_reads _ (fine_block _ H false)) as (C1 & _ & _). split; [exact (complete_app _ _ C1 C)|].
  rewrite (tags_of_app _ _ C1), ids_app.
  assert (D : subseq (map section_id (top_headings l)) (ids (tags_of (block_html false (Node k ch))) ++ ids (tags_of (concat (map (block_html false) l))))) by (apply subseq_after; exact IH).
  destruct k; try exact D. destruct level as [|[|level]]; try exact D.
  cbn [top_headings filter map]. fold (top_headings l). rewrite ids_heading. cbn [app]. apply subseq_take, subseq_after, IH.
Qed.
Lemma links_short n l : Forall (fun h => length (section_id h) <= 71) l ->
  map fst (links_of (firstn n (map entry l))) = filter nonempty (firstn n (map section_id l)).
Proof.
  intros F. revert n. induction F as [|h l H _ IH]; intros n; [destruct n; reflexivity|]. destruct n as [|n]; [reflexivity|].
  cbn [map firstn links_of filter]. cbn [entry fst]. unfold cut at 1. rewrite (firstn_all2 (section_id h)) by exact H.
  fold (links_of (firstn n (map entry l))). destruct (nonempty (section_id h)); [|apply IH]. cbn [map]. rewrite IH. cbn [entry fst]. unfold cut.
  rewrite (firstn_all2 (section_id h)) by exact H. reflexivity.
Qed.
Lemma labels_short l : Forall (fun h => length (section_id h) <= 71 /\ length (plain_text h) <= 71) l ->
  map snd (links_of (map entry l)) = map plain_text (filter (fun h => nonempty (section_id h)) l).
Proof.
  induction 1 as [|h l [H1 H2] _ IH]; [reflexivity|]. cbn [map links_of filter]. cbn [entry fst]. unfold cut at 1. rewrite (firstn_all2 (section_id h)) by exact H1.
  fold (links_of (map entry l)). destruct (nonempty (section_id h)); [|exact IH]. cbn [map]. rewrite IH. cbn [entry snd]. unfold cut.
  rewrite (firstn_all2 (plain_text h)) by exact H2. reflexivity.
Qed.

(** ** The headline *)
Local Arguments is_blank : simpl never.
Lemma blank_is c : blank c = is_blank c.
Proof. unfold blank, is_blank. cbn [existsb]. rewrite orb_false_r, !orb_assoc. reflexivity. Qed.
Lemma span_blank g s : forallb is_blank g = true -> (forall c r, s = c :: r -> is_blank c = false) -> span blank (g ++ s) = (g, s).
Proof.
  intros G N. induction g as [|c g IH]; cbn [app].
  - destruct s as [|c s]; [reflexivity|]. cbn [span]. rewrite blank_is, (N c s eq_refl). reflexivity.
  - cbn in G. apply andb_true_iff in G as [G1 G2]. cbn [span]. rewrite blank_is, G1, (IH G2). reflexivity.
Qed.
Lemma squeeze_word w r fuel : existsb is_blank w = false -> length w + length r <= fuel -> squeeze fuel (w ++ r) = w ++ squeeze (fuel - length w) r.
Proof.
  revert fuel. induction w as [|c w IH]; intros fuel W F; [rewrite Nat.sub_0_r; reflexivity|].
  cbn in W. apply orb_false_iff in W as [W1 W2]. destruct fuel as [|fuel]; [cbn in F; lia|]. cbn [app squeeze length]. rewrite blank_is, W1, IH by (assumption || cbn in F; lia). reflexivity.
Qed.
Definition spaced_tail (l : list str) : str := concat (map (fun w => SP :: w) l).
Lemma joined_cons w l : joined (w :: l) = w ++ spaced_tail l.
Proof.
  revert w. induction l as [|v l IH]; intros w; [unfold spaced_tail; cbn; rewrite app_nil_r; reflexivity|].
  change (joined (w :: v :: l)) with (w ++ [SP] ++ joined (v :: l)). rewrite IH. reflexivity.
Qed.
(** From a place between words: a space before every word, and one at the end if there are blanks. *)
Lemma squeeze_spaced s l : spaced s l -> (forall c r, s = c :: r -> is_blank c = true) -> forall fuel, length s <= fuel ->
  exists e, squeeze fuel s = spaced_tail l ++ e /\ (e = [] \/ e = [SP]).
Proof.
  induction 1 as [g G|g w s l G W1 W2 N H IH]; intros B fuel F.
  - destruct g as [|c g]; [exists []; split; [destruct fuel; reflexivity|left; reflexivity]|]. destruct fuel as [|fuel]; [cbn in F; lia|].
    cbn in G. apply andb_true_iff in G as [G1 G2]. cbn [squeeze]. rewrite blank_is, G1. rewrite <- (app_nil_r g), (span_blank g [] G2) by discriminate. cbn [snd].
    exists [SP]. split; [destruct fuel; reflexivity|right; reflexivity].
  - destruct g as [|c g].
    + exfalso. destruct w as [|c w]; [contradiction|]. specialize (B c (w ++ s) eq_refl). cbn in W2. rewrite B in W2. discriminate W2.
    + destruct fuel as [|fuel]; [cbn in F; lia|]. cbn in G. apply andb_true_iff in G as [G1 G2]. cbn [app squeeze]. rewrite blank_is, G1.
      rewrite (span_blank g (w ++ s) G2).
      * cbn [snd]. cbn in F. rewrite !app_length in F. rewrite squeeze_word by (assumption || lia).
        destruct (IH N (fuel - length w)) as (e & E & D); [lia|]. exists e. split; [|exact D]. rewrite E.
        unfold spaced_tail. cbn [map concat]. rewrite <- !app_assoc. cbn [app]. reflexivity.
      * intros d r E. destruct w as [|a w]; [contradiction|]. injection E as <- _. cbn in W2. apply orb_false_iff in W2. apply W2.
Qed.
Lemma drop_end_word x w e : w <> [] -> existsb is_blank w = false -> e = [] \/ e = [SP] -> rev (drop_end (rev ((x ++ w) ++ e))) = x ++ w.
Proof.
  intros N W E. destruct (exists_last N) as (v & c & ->). rewrite existsb_app in W. apply orb_false_iff in W as [_ W]. cbn in W. rewrite orb_false_r in W. unfold is_blank in W. cbn [existsb] in W.
  apply orb_false_iff in W as [W1 W]. apply orb_false_iff in W as [W2 _].
  assert (D : forall y, drop_end (c :: y) = c :: y) by (intros y; cbn [drop_end]; rewrite W1, W2; reflexivity).
  destruct E as [-> | ->].
  - rewrite app_nil_r, app_assoc, rev_unit, D. rewrite <- rev_unit, rev_involutive. reflexivity.
  - rewrite rev_unit. cbn [drop_end]. change (ceq SP SP) with true. cbn [orb]. rewrite app_assoc, rev_unit, D. rewrite <- rev_unit, rev_involutive. reflexivity.
Qed.
Lemma spaced_words s l : spaced s l -> Forall (fun w => w <> [] /\ existsb is_blank w = false) l.
Proof. induction 1; constructor; auto. Qed.
Lemma last_word l : l <> [] -> exists x w, In w l /\ joined l = x ++ w.
Proof.
  intros N. destruct l as [|w l]; [contradiction|]. revert w N. induction l as [|v l IH]; intros w _.
  - exists [], w. split; [left; reflexivity|reflexivity].
  - destruct (IH v ltac:(discriminate)) as (x & u & J & E). exists (w ++ [SP] ++ x), u. split; [right; exact J|].
    change (joined (w :: v :: l)) with (w ++ [SP] ++ joined (v :: l)). rewrite E, <- !app_assoc. reflexivity.
Qed.
Lemma normalize_ok s l : spaced s l -> normalize s = joined l.
Proof.
  intros H. pose proof (spaced_words s l H) as F. unfold normalize. destruct H as [g G|g w s l G W1 W2 N H].
  - rewrite <- (app_nil_r g), (span_blank g [] G) by discriminate. reflexivity.
  - rewrite (span_blank g (w ++ s) G).
    + cbn [snd]. rewrite squeeze_word by (rewrite ?app_length; assumption || lia).
      destruct (squeeze_spaced s l H N (length (w ++ s) - length w)) as (e & E & D); [rewrite app_length; lia|].
      rewrite E, app_assoc, <- joined_cons. destruct (last_word (w :: l) ltac:(discriminate)) as (x & v & J & ->).
      rewrite Forall_forall in F. destruct (F v J) as [V1 V2]. apply drop_end_word; assumption.
    + intros d r E. destruct w as [|a w]; [contradiction|]. injection E as <- _. cbn in W2. apply orb_false_iff in W2. apply W2.
Qed.

(** ** The page *)
Definition element (t s : str) : str := B "<" ++ t ++ B ">" ++ s ++ B "</" ++ tag_name t ++ B ">".
Lemma fine_element t s : opening t -> forallb (fun c => negb (ceq c ">"%char)) t = true -> fine s -> fine (element t s).
Proof.
  intros O N. apply fine_wrap; [exact O|]. intros J. rewrite forallb_forall in N. specialize (N _ J). discriminate N.
Qed.
Lemma sheet_fine p : fine (sheet p).
Proof.
  set (t := B "link rel=" ++ [DQ] ++ B "stylesheet" ++ [DQ] ++ B " href=" ++ [DQ] ++ esc p ++ [DQ]).
  replace (sheet p) with ((B "<" ++ t ++ B ">") ++ [NL]) by (unfold sheet, t; rewrite <- !app_assoc; reflexivity).
  apply fine_app; [|fine_lit].
  assert (N : ~ In ">"%char t).
  { unfold t. intros J. do 6 (apply in_app_or in J as [J|J]; [cbn in J; intuition discriminate|]).
    apply in_app_or in J as [J|J]; [exact (esc_no p J)|cbn in J; intuition discriminate]. }
  exists [], []. exists []. split; [|reflexivity]. exists [Tg t]. split; [exact (run_tag t N)|]. split; [reflexivity|]. split; [reflexivity|].
  intros o r. reflexivity.
Qed.
Lemma sheets_fine l : fine (concat (map sheet l)).
Proof. induction l as [|p l IH]; [exact fine_nil|]. exact (fine_app _ _ (sheet_fine p) IH). Qed.
Definition page_head (css cmd desc : str) (sheets : list str) : str :=
  ([NL] ++ B "<meta charset=" ++ [DQ] ++ B "utf-8" ++ [DQ] ++ B ">" ++ [NL]) ++ element (B "title") (esc cmd ++ long_dash ++ esc desc) ++ [NL] ++
  element (B "style") ([NL] ++ css) ++ [NL] ++ concat (map sheet sheets).
Definition page_body (cmd desc : str) (ch : list node) : str :=
  [NL] ++ nav (sections max_sections ch) ++ element (B "main class=" ++ [DQ] ++ B "man-main" ++ [DQ])
    ([NL] ++ element (B "h1 class=" ++ [DQ] ++ B "man-headline" ++ [DQ]) (esc cmd ++ long_dash ++ esc desc) ++ [NL] ++ block_html false (Node Document ch) ++ [NL]) ++ [NL].
Lemma page_shape css title sheets ch : let (cmd, desc) := headline title ch in
  man_html true css title sheets ch = B "<!DOCTYPE html>" ++ [NL] ++ element (B "html lang=" ++ [DQ] ++ B "en" ++ [DQ])
    ([NL] ++ element (B "head") (page_head css cmd desc sheets) ++ [NL] ++ element (B "body class=" ++ [DQ] ++ B "man-standalone" ++ [DQ]) (page_body cmd desc ch) ++ [NL]).
Proof.
  destruct (headline title ch) as [cmd desc] eqn:E. unfold man_html. rewrite E. cbn [negb]. unfold page_head, page_body, element.
  change (tag_name (B "title")) with (B "title"). change (tag_name (B "style")) with (B "style"). change (tag_name (B "head")) with (B "head").
  change (tag_name (B "main class=" ++ [DQ] ++ B "man-main" ++ [DQ])) with (B "main"). change (tag_name (B "h1 class=" ++ [DQ] ++ B "man-headline" ++ [DQ])) with (B "h1").
  change (tag_name (B "html lang=" ++ [DQ] ++ B "en" ++ [DQ])) with (B "html"). change (tag_name (B "body class=" ++ [DQ] ++ B "man-standalone" ++ [DQ])) with (B "body").
  rewrite <- !app_assoc. reflexivity.
Qed.
Lemma title_fine cmd desc : fine (esc cmd ++ long_dash ++ esc desc).
Proof. apply fine_app; [apply fine_esc|]. apply fine_app; [|apply fine_esc]. fine_lit. Qed.
Ltac elem := apply fine_element; [reflexivity|reflexivity|].
Lemma doc_no_dl ch : Forall no_dl ch -> no_dl (Node Document ch).
Proof. intros F. cbn [no_dl]. induction F as [|n l H _ IH]; [exact I|split; assumption]. Qed.
Lemma page_fine css title sheets ch : ~ In "<"%char css -> ~ In "&"%char css -> Forall no_dl ch -> forall standalone, fine (man_html standalone css title sheets ch).
Proof.
  intros N1 N2 F standalone. pose proof (fine_block _ (doc_no_dl ch F) false) as Bf. destruct standalone; [|exact Bf].
  pose proof (page_shape css title sheets ch) as E. destruct (headline title ch) as [cmd desc]. rewrite E. clear E.
  do 2 (apply fine_app; [fine_lit|]). elem. apply fine_app; [fine_lit|].
  apply fine_app; [|apply fine_app; [fine_lit|apply fine_app; [|fine_lit]]]; elem.
  - unfold page_head. apply fine_app; [fine_lit|].
    apply fine_app; [elem; apply title_fine|]. apply fine_app; [fine_lit|]. apply fine_app; [elem; apply fine_app; [fine_lit|]|].
    + exact (fine_of _ _ _ (bpart_of _ _ _ (part_plain css N1 N2))).
    + apply fine_app; [fine_lit|apply sheets_fine].
  - unfold page_body. apply fine_app; [fine_lit|]. apply fine_app; [apply nav_ok|]. apply fine_app; [|fine_lit]. elem.
    apply fine_app; [fine_lit|]. apply fine_app; [elem; apply title_fine|]. apply fine_app; [fine_lit|]. apply fine_app; [exact Bf|fine_lit].
Qed.
Lemma long_dash_reads cmd desc : text_of (esc cmd ++ long_dash ++ esc desc) = cmd ++ long_dash ++ desc.
Proof.
  rewrite (text_app _ _ (complete_esc cmd)), (text_app long_dash _ eq_refl), !text_esc. reflexivity.
Qed.
Lemma page_title css title sheets ch cmd desc : headline title ch = (cmd, desc) -> exists a x b c,
  man_html true css title sheets ch = a ++ B "<title>" ++ x ++ B "</title>" ++ b ++ B "<h1 class=" ++ [DQ] ++ B "man-headline" ++ [DQ] ++ B ">" ++ x ++ B "</h1>" ++ c /\
  text_of x = cmd ++ long_dash ++ desc.
Proof.
  intros E. unfold man_html. rewrite E. cbn [negb].
  exists (B "<!DOCTYPE html>" ++ [NL] ++ B "<html lang=" ++ [DQ] ++ B "en" ++ [DQ] ++ B ">" ++ [NL] ++ B "<head>" ++ [NL]
    ++ B "<meta charset=" ++ [DQ] ++ B "utf-8" ++ [DQ] ++ B ">" ++ [NL]), (esc cmd ++ long_dash ++ esc desc),
    ([NL] ++ B "<style>" ++ [NL] ++ css ++ B "</style>" ++ [NL]
    ++ concat (map sheet sheets)
    ++ B "</head>" ++ [NL] ++ B "<body class=" ++ [DQ] ++ B "man-standalone" ++ [DQ] ++ B ">" ++ [NL]
    ++ nav (sections max_sections ch)
    ++ B "<main class=" ++ [DQ] ++ B "man-main" ++ [DQ] ++ B ">" ++ [NL]),
    ([NL] ++ block_html false (Node Document ch) ++ [NL] ++ B "</main>" ++ [NL] ++ B "</body>" ++ [NL] ++ B "</html>").
  split; [rewrite <- !app_assoc; reflexivity|apply long_dash_reads].
Qed.
Lemma name_section_ok pre h mid p post : Forall (fun n => forall ch, n = Node (Heading 1) ch -> plain_text n <> B "NAME") pre ->
  Forall (fun n => match kind_of n with Paragraph | Heading _ => False | _ => True end) mid -> plain_text (Node (Heading 1) h) = B "NAME" -> plain_text (Node Paragraph p) <> [] ->
  name_section (pre ++ Node (Heading 1) h :: mid ++ Node Paragraph p :: post) = Some (plain_text (Node Paragraph p)).
Proof.
  intros F1 F2 E N. induction F1 as [|n pre H _ IH]; cbn [app].
  - cbn [name_section]. rewrite E. change (seq_ (B "NAME") (B "NAME")) with true. cbv iota.
    induction F2 as [|m mid H _ IH]; cbn [app name_paragraph].
    + destruct (plain_text (Node Paragraph p)); [contradiction|reflexivity].
    + destruct m as [k ch]. destruct k; try exact IH; contradiction.
  - destruct n as [k ch]. cbn [name_section]. destruct k; try exact IH. destruct level as [|[|level]]; try exact IH.
    destruct (seq_ (plain_text (Node (Heading 1) ch)) (B "NAME")) eqn:S; [apply seq_eq in S; destruct (H ch eq_refl S)|exact IH].
Qed.
Lemma headline_ok title l n c d wc wd : name_section l = Some n -> n = c ++ B " - " ++ d -> (forall a b, n = a ++ B " - " ++ b -> length c <= length a) ->
  spaced c wc -> spaced d wd -> (opt title = [] \/ ~ In "("%char (opt title) \/ ~ In ")"%char (opt title)) ->
  headline title l = (joined wc, joined wd).
Proof.
  intros E -> M C D T. unfold headline. rewrite E.
  assert (K : strstr (B " - ") (c ++ B " - " ++ d) = Some (length c)) by (apply strstr_first; exact M).
  rewrite K. rewrite firstn_app, firstn_all, Nat.sub_diag. cbn [firstn]. rewrite app_nil_r.
  replace (skipn (length c + 3) (c ++ B " - " ++ d)) with d.
  - rewrite (normalize_ok _ _ C), (normalize_ok _ _ D). f_equal. destruct (opt title) as [|x t] eqn:O; [reflexivity|].
    destruct T as [T|[T|T]]; [discriminate T| |]; apply strchr_none in T; rewrite T; [reflexivity|destruct (strchr "("%char (x :: t)); reflexivity].
  - rewrite skipn_app, skipn_all2 by lia. replace (length c + 3 - length c) with 3 by lia. reflexivity.
Qed.
