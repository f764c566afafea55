(** C30, C82-C86: table of contents. *)
From Verif Require Import Base BaseL Dec M_Toc S_Toc L_Toc L_Toc2 L_Toc3.

(** Headings with level, text and id. *)
Definition hds (l : list heading) : list hd := map (fun h => Hd (level h) (snd (fst h)) (snd h)) l.
Lemma hds_of l : map of_hd (hds l) = l.
Proof. unfold hds. rewrite map_map. rewrite <- (map_id l) at 2. apply map_ext. intros [[n t] i]. reflexivity. Qed.
Lemma hds_nil l : l <> [] -> hds l <> [].
Proof. intros H E. apply H. now apply map_eq_nil in E. Qed.
Lemma hds_body l lo hi : l <> [] -> fits (wanted lo hi l) ->
  fst (toc_html (hds l) lo hi) = nl "<nav class=""toc"">" ++ body 0 0 (wanted lo hi l) ++ nl "</nav>".
Proof. intros N F. rewrite toc_body by (rewrite ?hds_of; auto using hds_nil). now rewrite hds_of. Qed.

(** ** C30 *)
(** The full claim: lists and entries are well nested. *)
Definition C30_full : Prop := forall l lo hi, Forall plain l -> Forall (fun h => 1 <= level h <= 6) l -> fits (wanted lo hi l) ->
  nested [] (fst (toc_html (hds l) lo hi)) = true.
(** It fails for a subheading followed by a heading: [</ul>] is written before the
    [</li>] of the subheading. *)
Definition three : list heading := [(1, B "a", B "a"); (2, B "b", B "b"); (1, B "c", B "c")].
Lemma three_plain : Forall plain three.
Proof. repeat constructor; cbn; intros [H|[]]; discriminate. Qed.
Theorem C30_refuted : ~ C30_full.
Proof.
  intro H. specialize (H three 1%Z 6%Z three_plain). assert (E : nested [] (fst (toc_html (hds three) 1 6)) = false) by (vm_compute; reflexivity).
  rewrite E in H. discriminate H.
  - repeat constructor.
  - split; [repeat (constructor; [apply Nat.leb_le; vm_compute; reflexivity|]); constructor|apply Nat.ltb_lt; vm_compute; reflexivity].
Qed.
Print Assumptions C30_refuted.
(** When everything fits, the table is well nested if and only if the levels are
    climbing: a heading after the first is either deeper than the one before, or its
    level is the number of open lists. *)
Theorem C30_exact_partial l lo hi : l <> [] -> Forall plain l -> Forall (fun h => 0 < level h) l -> fits (wanted lo hi l) ->
  (nested [] (fst (toc_html (hds l) lo hi)) = true <-> climbing (map level (wanted lo hi l))).
Proof.
  intros N P L F. rewrite hds_body by assumption. apply nested_toc.
  - apply Forall_forall. intros h I. rewrite Forall_forall in P. apply P. now apply filter_In in I.
  - apply Forall_forall. intros h I. rewrite Forall_forall in L. apply L. now apply filter_In in I.
Qed.
Print Assumptions C30_exact_partial.
(** In particular it is well nested if the first level is 1 and every following one is the same
    or one more; and it is not if, after a heading of level 1, any heading is less
    deep than the one before. *)
Lemma step_steady l : forall d, (forall a x y b, d :: l = a ++ x :: y :: b -> y = x \/ y = S x) -> steady d d l.
Proof.
  induction l as [|h l IH]; intros d H; [exact I|]. cbn. destruct (H [] d h l eq_refl) as [->| ->].
  - left. split; [reflexivity|]. apply IH. intros a x y b E. apply (H (d :: a) x y b). now rewrite E.
  - right. split; [lia|]. apply IH. intros a x y b E. apply (H (d :: a) x y b). now rewrite E.
Qed.
Theorem C30_steps_partial l lo hi : l <> [] -> Forall plain l -> Forall (fun h => 0 < level h) l -> fits (wanted lo hi l) ->
  (exists r, map level (wanted lo hi l) = 1 :: r) ->
  (forall a x y b, map level (wanted lo hi l) = a ++ x :: y :: b -> y = x \/ y = S x) ->
  nested [] (fst (toc_html (hds l) lo hi)) = true.
Proof.
  intros N P L F (r & R) S0. apply C30_exact_partial; auto. rewrite R in *. cbn. now apply step_steady.
Qed.
Print Assumptions C30_steps_partial.
Lemma steady_up l : forall d, (forall a x y b, d :: l = a ++ x :: y :: b -> y <= S x) -> steady d d l ->
  forall a x y b, d :: l = a ++ x :: y :: b -> x <= y.
Proof.
  induction l as [|h l IH]; intros d H S0 a x y b E.
  - destruct a as [|? [|? ?]]; discriminate.
  - assert (H' : forall a x y b, h :: l = a ++ x :: y :: b -> y <= S x).
    { intros a' x' y' b' E'. apply (H (d :: a') x' y' b'). now rewrite E'. }
    pose proof (H [] d h l eq_refl) as Hh. cbn in S0. destruct S0 as [[-> S0]|[Lh S0]].
    + destruct a as [|z a]; [injection E; intros; subst; lia|]. injection E as _ E. eapply (IH d H' S0); exact E.
    + assert (h = S d) as -> by lia.
      destruct a as [|z a]; [injection E; intros; subst; lia|]. injection E as _ E. eapply (IH (S d) H' S0); exact E.
Qed.
Theorem C30_up_refuted l lo hi a x y b : l <> [] -> Forall plain l -> Forall (fun h => 0 < level h) l -> fits (wanted lo hi l) ->
  (exists r, map level (wanted lo hi l) = 1 :: r) ->
  (forall a x y b, map level (wanted lo hi l) = a ++ x :: y :: b -> y <= S x) ->
  map level (wanted lo hi l) = a ++ x :: y :: b -> y < x ->
  nested [] (fst (toc_html (hds l) lo hi)) = false.
Proof.
  intros N P L F (r & R) S0 E Lt. apply Bool.not_true_iff_false. intro T. apply C30_exact_partial in T; auto.
  rewrite R in *. cbn in T. pose proof (steady_up r 1 S0 T _ _ _ _ E). lia.
Qed.
Print Assumptions C30_up_refuted.
Example C30_case :
  toc_html (hds [(1, B "A", B "a"); (2, B "B", B "b"); (2, B "C", B "c")]) 1 6 =
  (nl "<nav class=""toc"">" ++ nl "<ul>" ++ B "<li><a href=""#a"">A</a>" ++ nl "<ul>" ++ B "<li><a href=""#b"">B</a>" ++ nl "</li>" ++
   B "<li><a href=""#c"">C</a>" ++ nl "</li>" ++ nl "</ul>" ++ nl "</li>" ++ nl "</ul>" ++ nl "</nav>", false) /\
  fits [(1, B "A", B "a"); (2, B "B", B "b"); (2, B "C", B "c")] /\
  nested [] (fst (toc_html (hds [(1, B "A", B "a"); (2, B "B", B "b"); (2, B "C", B "c")]) 1 6)) = true.
Proof. split; [vm_compute; reflexivity|]. split; [|vm_compute; reflexivity]. split; [repeat (constructor; [apply Nat.leb_le; vm_compute; reflexivity|]); constructor|apply Nat.ltb_lt; vm_compute; reflexivity]. Qed.

(** ** C82 *)
(** The full claim: an entry for each wanted heading, in order. *)
Definition C82_full : Prop := forall l lo hi, l <> [] ->
  exists x, fst (toc_html (hds l) lo hi) = nl "<nav class=""toc"">" ++ x ++ nl "</nav>" /\ woven (wanted lo hi l) x.
(** It fails when the table has more than four thousand bytes: the rest is dropped. *)
Definition many : list heading := repeat (1, repeat "x"%char 60, B "i") 60.
Lemma woven_length l x : woven l x -> list_sum (map (fun h => length (entry h)) l) <= length x.
Proof. induction 1 as [|t l x _ _ IH|h l x _ IH]; cbn [map list_sum fold_right]; rewrite ?app_length; [apply le_n| |]; unfold list_sum in *; lia. Qed.
Theorem C82_refuted : ~ C82_full.
Proof.
  intro H. destruct (H many 1%Z 6%Z) as (x & E & W); [discriminate|].
  apply woven_length in W. apply (f_equal (@length _)) in E. rewrite !app_length in E.
  assert (A : Nat.ltb (length (fst (toc_html (hds many) 1 6))) 4096 = true) by (vm_compute; reflexivity).
  assert (C : Nat.ltb 4100 (list_sum (map (fun h => length (entry h)) (wanted 1 6 many))) = true) by (vm_compute; reflexivity).
  apply Nat.ltb_lt in A, C. lia.
Qed.
Print Assumptions C82_refuted.
Theorem C82_partial l lo hi : l <> [] -> fits (wanted lo hi l) ->
  exists x, fst (toc_html (hds l) lo hi) = nl "<nav class=""toc"">" ++ x ++ nl "</nav>" /\ woven (wanted lo hi l) x.
Proof. intros N F. exists (body 0 0 (wanted lo hi l)). split; [now apply hds_body|apply woven_body]. Qed.
Print Assumptions C82_partial.
(** Nothing is ever stored outside the buffer. *)
Theorem C82_safe l lo hi : snd (toc_html l lo hi) = false.
Proof. exact (toc_safe l lo hi). Qed.
Print Assumptions C82_safe.

(** ** C83 *)
(** The full claim: the text of an entry is escaped. *)
Definition C83_full : Prop := forall n t i, 1 <= n <= 6 -> length t < 200 -> length i < 200 ->
  exists p q, fst (toc_html (hds [(n, t, i)]) 1 6) = p ++ B """>" ++ escape t ++ B "</a>" ++ q.
(** It fails: code in a heading becomes a tag in the table. *)
Theorem C83_refuted : ~ C83_full.
Proof.
  intro H. destruct (H 1 (B "<b>") (B "b")) as (p & q & E); [lia|cbn; lia|cbn; lia|].
  assert (N : strstr (B """>" ++ escape (B "<b>") ++ B "</a>") (fst (toc_html (hds [(1, B "<b>", B "b")]) 1 6)) = None) by (vm_compute; reflexivity).
  apply (strstr_none _ _ N p q). rewrite E, <- !app_assoc. reflexivity.
Qed.
Print Assumptions C83_refuted.
Lemma escape_plain t : Forall (fun c => ~ In c [DQ; "&"%char; "<"%char; ">"%char]) t -> escape t = t.
Proof.
  induction 1 as [|c t H _ IH]; [reflexivity|]. unfold escape in *. cbn [flat_map]. rewrite IH.
  assert (forall d, In d [DQ; "&"%char; "<"%char; ">"%char] -> ceq c d = false) as X by (intros d I; apply ceq_neq; intros ->; contradiction).
  rewrite !X by (cbn; tauto). reflexivity.
Qed.
Theorem C83_partial n t i : 1 <= n <= 6 -> length t < 200 -> length i < 200 ->
  Forall (fun c => ~ In c [DQ; "&"%char; "<"%char; ">"%char]) t ->
  exists p q, fst (toc_html (hds [(n, t, i)]) 1 6) = p ++ B """>" ++ escape t ++ B "</a>" ++ q.
Proof.
  intros Hn Lt Li F. rewrite (escape_plain t F).
  assert (Wn : wanted 1 6 [(n, t, i)] = [(n, t, i)]).
  { unfold wanted. cbn [filter]. unfold level. cbn [fst]. destruct ((1 <=? Z.of_nat n)%Z && (Z.of_nat n <=? 6)%Z)%bool eqn:E; [reflexivity|lia]. }
  assert (Le : length (entry (n, t, i)) < 430) by (unfold entry; cbn [fst snd]; rewrite !app_length; cbn; lia).
  destruct (C82_partial [(n, t, i)] 1 6) as (x & E & W); [discriminate|rewrite Wn; split; [constructor; [lia|constructor]|cbn [map list_sum fold_right]; lia]|].
  rewrite Wn in W. rewrite E.
  assert (Y : exists p q, x = p ++ entry (n, t, i) ++ q).
  { clear - W. remember [(n, t, i)] as l eqn:El. induction W as [|u l s _ _ IH|h l s _ _]; [discriminate| |].
    - destruct (IH El) as (p & q & ->). exists (u ++ p), q. now rewrite <- app_assoc.
    - injection El as -> _. now exists [], s. }
  destruct Y as (p & q & ->). unfold entry. cbn [fst snd]. exists (nl "<nav class=""toc"">" ++ p ++ B "<li><a href=""#" ++ i), (q ++ nl "</nav>"). rewrite <- !app_assoc. reflexivity.
Qed.
Print Assumptions C83_partial.

(** ** C84 *)
(** The full claim: the levels are those given in the marker. *)
Definition C84_full : Prop := forall c m b, marker c m -> marker_range (m ++ b) = marker_range m.
(** It fails: numbers in the text behind the marker are taken, too. *)
Theorem C84_refuted : ~ C84_full.
Proof.
  intro H. assert (M : marker true (B "<!--TOC-->")).
  { apply (m_comment []). intros a b E. apply (f_equal (@length _)) in E. rewrite !app_length in E. cbn in E. lia. }
  specialize (H true _ (B "<p>Ratio: 4-2</p>") M). vm_compute in H. discriminate.
Qed.
Print Assumptions C84_refuted.
Theorem C84_partial c m b : marker c m -> (forall d, In d b -> isdigit d = false) -> marker_range (m ++ b) = marker_range m.
Proof.
  intros M D. apply range_app; [exact D|]. destruct M as [x _|x _].
  - exists (B "<!--TOC" ++ x ++ B "--"), ">"%char. split; [now rewrite <- !app_assoc|split; reflexivity].
  - exists (B "{{TOC" ++ x ++ B "}"), "}"%char. split; [now rewrite <- !app_assoc|split; reflexivity].
Qed.
Print Assumptions C84_partial.
(** Given as a pair the levels are taken whatever follows. *)
Theorem C84_pair m n b : marker_range (B "{{TOC:" ++ dec m ++ B "-" ++ dec n ++ B "}}" ++ b) = (Z.of_nat m, Z.of_nat n).
Proof.
  pose proof (range_given (B "{{TOC") (dec m) (dec n) (B "}}" ++ b)) as R.
  change (B "{{TOC:" ++ dec m ++ B "-" ++ dec n ++ B "}}" ++ b) with (B "{{TOC" ++ B ":" ++ dec m ++ B "-" ++ dec n ++ B "}}" ++ b).
  rewrite R; [now rewrite !dec_value| | | | | |].
  - cbn. intros [H|[H|[H|[H|[H|[]]]]]]; discriminate.
  - apply dec_all_digits.
  - apply dec_all_digits.
  - apply dec_all_digits.
  - apply dec_all_digits.
  - intros d q E. injection E as <- _. reflexivity.
Qed.
Print Assumptions C84_pair.
Example C84_case : marker_range (B "{{TOC:2-3}} 7:9") = (2, 3)%Z /\ marker_range (B "<!--TOC max4 min2-->") = (2, 4)%Z /\
  marker_range (B "<!--TOC--> Time: 5") = (5, 6)%Z.
Proof. vm_compute. auto. Qed.

(** ** C85 *)
(** The full claim: every marker outside code is replaced. *)
Definition C85_full : Prop := forall idf html doc out, no_code html -> (forall x, ~ In "{"%char (idf x)) ->
  Forall (fun h => ~ In "{"%char (snd h)) (collect doc) -> toc idf html doc = Some (out, false) ->
  strstr (B "{{TOC}}") out = None.
(** It fails: only the first one is. *)
Theorem C85_refuted : ~ C85_full.
Proof.
  intro H.
  assert (E : exists out, toc (fun _ => B "i") (B "{{TOC}} {{TOC}}") (Node (Some (1, B "a")) None []) = Some (out, false) /\
    strstr (B "{{TOC}}") out <> None).
  { eexists. split; [vm_compute; reflexivity|vm_compute; discriminate]. }
  destruct E as (out & E & N). apply N. eapply H; [| | |exact E].
  - intros x y X. exfalso. assert (I : In "<"%char (B "{{TOC}} {{TOC}}")) by (rewrite X; apply in_elt).
    cbn in I. repeat (destruct I as [I|I]; [discriminate I|]). exact I.
  - intros _ [X|[]]. discriminate.
  - constructor; [|constructor]. cbn. intros [X|[]]. discriminate.
Qed.
Print Assumptions C85_refuted.
(** What is done, for all inputs: nothing, or one marker is replaced by the table of
    the headings; nothing is stored outside a buffer. *)
Definition linked (idf : str -> str) (doc : node) : list hd := hds (map (fun x => (fst x, snd x, idf (snd x))) (collect doc)).
Lemma linked_ok idf doc : map (number idf) (collect doc) = linked idf doc.
Proof. unfold linked, hds. rewrite map_map. reflexivity. Qed.
Theorem C85_partial idf html doc : exists out, toc idf html doc = Some (out, false) /\
  (out = html \/ exists a c m b lo hi, html = a ++ m ++ b /\ marker c m /\
     out = a ++ fst (toc_html (linked idf doc) lo hi) ++ b).
Proof.
  rewrite <- linked_ok.
  destruct (toc_shape idf html doc) as (out & E & H). exists out. split; [exact E|].
  destruct H as [->|(a & c & m & b & lo & hi & X & M & _ & _ & O)]; [now left|right]. eauto 12.
Qed.
Print Assumptions C85_partial.
(** The first marker is replaced if there is no code before. *)
Theorem C85_first_partial idf doc a c m b : marker c m -> no_code a -> collect doc <> [] ->
  (forall p r c', a ++ m ++ b = p ++ mstart c' ++ r -> length a <= length p) ->
  toc idf (a ++ m ++ b) doc =
  Some (a ++ fst (toc_html (linked idf doc) (fst (marker_range (m ++ b))) (snd (marker_range (m ++ b)))) ++ b, false).
Proof. intros M N D F. rewrite <- linked_ok. apply (toc_replaced idf doc a c m b M (no_code_inside a N 0) D F). Qed.
Print Assumptions C85_first_partial.
(** Markers in code stay. *)
Theorem C85_code_partial idf html doc : (forall p c q, html = p ++ mstart c ++ q -> in_pre_or_code p) ->
  toc idf html doc = Some (html, false).
Proof. intro H. apply toc_in_code. intros p c q E. apply in_code_opened. eapply H. exact E. Qed.
Print Assumptions C85_code_partial.
Definition doc1 : node := Node None None [Node (Some (1, B "A")) None []; Node (Some (2, B "B")) (Some (B " class=""no_toc""")) []].
Example C85_case :
  collect doc1 = [(1, B "A")] /\
  toc (fun x => x) (B "<p>x</p>{{TOC}}<p>y</p>") doc1 =
    Some (B "<p>x</p>" ++ nl "<nav class=""toc"">" ++ nl "<ul>" ++ B "<li><a href=""#A"">A</a>" ++ nl "</li>" ++ nl "</ul>" ++ nl "</nav>" ++ B "<p>y</p>", false) /\
  toc (fun x => x) (B "<pre><code>{{TOC}}</code></pre>") doc1 = Some (B "<pre><code>{{TOC}}</code></pre>", false).
Proof. vm_compute. auto. Qed.

(** ** C86 *)
(** The full claim: the headings are all headings in order but those of the class [no_toc]. Here for
    a heading with an id and no class. *)
Definition C86_full : Prop := forall n t i, collect (Node (Some (n, t)) (Some (B " id=""" ++ i ++ B """")) []) = [(n, t)].
(** It fails: an id (or any other attribute) with these letters leaves the heading out, too. *)
Theorem C86_refuted : ~ C86_full.
Proof. intro H. specialize (H 1 (B "a") (B "about-no_tocs")). discriminate H. Qed.
Print Assumptions C86_refuted.
(** All headings, in order, but those with these letters somewhere in their attributes. *)
Theorem C86_partial n : exists keep,
  collect n = map fst (filter keep (preorder n)) /\
  (forall x, keep (x, None) = true) /\
  (forall x a, keep (x, Some a) = false <-> exists p q, a = p ++ B "no_toc" ++ q).
Proof.
  exists (fun x => negb (no_toc (snd x))). split; [apply collect_ok|]. split; [reflexivity|].
  intros x a. unfold no_toc. cbn [snd]. destruct (strstr (B "no_toc") a) as [k|] eqn:E; cbn [negb].
  - split; [intros _|reflexivity]. apply strstr_some in E. destruct E as (p & q & E & _). eauto.
  - split; [discriminate|]. intros (p & q & ->). exfalso. exact (strstr_none _ _ E p q eq_refl).
Qed.
Print Assumptions C86_partial.
Example C86_case : collect (Node None None [Node (Some (1, B "a")) None [Node (Some (3, B "b")) None []]; Node (Some (2, B "c")) (Some (B " class=""no_toc""")) []]) =
  [(1, B "a"); (3, B "b")].
Proof. vm_compute. reflexivity. Qed.
