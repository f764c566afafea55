(** Properties C195-C202: Markdown in HTML elements (src/extensions/html_markdown.c). *)
From Verif Require Import Base BaseL M_HtmlMd S_HtmlMd L_Divs L_Divs2 L_HtmlMd.

Lemma keyless s : strstr S_HtmlMd.key s = None -> ~ has S_HtmlMd.key s.
Proof. intros H (a & b & E). exact (strstr_none _ s H a b E). Qed.
Lemma settled_text a : strstr S_HtmlMd.key a = None -> strchr "<"%char a = None -> settled a.
Proof. intros K N. split; [apply no_key_plain, keyless, K|]. intros x y ->. apply strchr_none in N. destruct N. apply in_or_app. right. left. reflexivity. Qed.
(** Words on literals. *)
Definition word_b (w : str) : bool := negb (seq_ w []) && forallb (fun c => negb (isspace c) && negb (ceq c ">"%char)) w.
Lemma word_ok w : word_b w = true -> word w.
Proof.
  unfold word_b. rewrite andb_true_iff. intros [Z F]. split; [intros ->; discriminate|]. apply Forall_forall. intros c I. apply (proj1 (forallb_forall _ _) F) in I. apply andb_true_iff in I as [I1 I2].
  split; [destruct (isspace c); [discriminate|reflexivity]|]. intros ->. discriminate.
Qed.
Lemma other_ok w : word_b w = true -> starts S_HtmlMd.key w = false -> other w.
Proof. intros W N. split; [apply word_ok, W|]. intros [r ->]. rewrite (proj2 (starts_spec _ _)) in N by eauto. discriminate. Qed.
Lemma name_ok t : forallb name_char t = true -> 0 < length t < 64 -> name t.
Proof. intros F L. split; [|exact L]. apply Forall_forall. intros c I. apply name_spec. exact (proj1 (forallb_forall _ _) F c I). Qed.
Lemma quoted_ok v : word_b (S_HtmlMd.key ++ [DQ] ++ v ++ [DQ]) = true -> length v < 64 -> strchr DQ v = None -> strchr BS v = None -> Value v ([DQ] ++ v ++ [DQ]).
Proof. intros W L Q S. split; [apply word_ok, W|]. split; [exact L|]. right. exists DQ. split; [auto|]. split; [reflexivity|]. split; apply strchr_none; assumption. Qed.
Lemma end_ok t : end_tag t (B "</" ++ t ++ B ">").
Proof. exists t, []. repeat split; auto. Qed.
Lemma nested_text t c : strchr "<"%char c = None -> Nested t 0 c.
Proof.
  intros N. apply strchr_none in N. induction c as [|d c IH]; [constructor|]. apply Ne_byte.
  - intros (x & e & r & E & _). injection E as -> _. apply N. left. reflexivity.
  - intros (x & e & r & E & _). injection E as -> _. apply N. left. reflexivity.
  - apply IH. intros I. apply N. right. exact I.
Qed.
Definition bold : str := B "b".
Lemma bold_good v : word_b (S_HtmlMd.key ++ [DQ] ++ v ++ [DQ]) = true -> length v < 64 -> strchr DQ v = None -> strchr BS v = None -> good_tag bold [] v ([DQ] ++ v ++ [DQ]) [].
Proof. intros W L Q S. split; [apply name_ok; [reflexivity|cbn; lia]|]. split; [constructor|]. split; [apply quoted_ok; assumption|constructor]. Qed.
Definition inside (s : str) : str := fst (span (fun c => negb (ceq c ">"%char)) s).
Fixpoint plain_b (s : str) : bool :=
  match s with [] => true | c :: r => (negb (ceq c "<"%char) || match strstr S_HtmlMd.key (inside r) with None => true | _ => false end) && plain_b r end.
Lemma plain_ok s : plain_b s = true -> plain s.
Proof.
  intros H x i z E N K. revert s H E. induction x as [|c x IH]; intros s H E.
  - subst s. change (B "<" ++ i ++ B ">" ++ z) with ("<"%char :: i ++ ">"%char :: z) in H. cbn [app plain_b] in H. rewrite ceq_refl in H. cbn [negb orb] in H.
    assert (I : inside (i ++ ">"%char :: z) = i) by (unfold inside; rewrite span_word; [reflexivity| |right; exists ">"%char, z; auto]; apply Forall_forall; intros d I; rewrite (proj2 (ceq_neq d ">"%char)) by (intros ->; contradiction); reflexivity).
    rewrite I in H. destruct (strstr S_HtmlMd.key i) eqn:Q; [discriminate|]. exact (keyless i Q K).
  - subst s. cbn [app plain_b] in H. apply andb_true_iff in H as [_ H]. exact (IH _ H eq_refl).
Qed.
(** An element b around [c]. *)
Definition bolded (v c : str) : str := start_tag bold [] ([DQ] ++ v ++ [DQ]) [] ++ c ++ (B "</b>") ++ [].
Lemma bolded_page render c : strstr S_HtmlMd.key c = None -> strchr "<"%char c = None -> c <> [] -> Page render (bolded (B "1") c) (B "<b>" ++ render c ++ B "</b>" ++ [NL]).
Proof.
  intros K N Z. apply (Pg_markdown render [] bold [] (B "1") ([DQ] ++ B "1" ++ [DQ]) [] c c (render c) (B "</b>") [] []).
  - apply settled_text; reflexivity.
  - apply bold_good; try reflexivity. cbn; lia.
  - cbn. lia.
  - apply nested_text, N.
  - apply (end_ok bold).
  - exact Z.
  - apply Pg_rest, no_key_plain, keyless, K.
  - destruct c; [congruence|cbn [length]; lia].
  - left. split; [left; reflexivity|reflexivity].
  - apply Pg_rest, no_key_plain, keyless. reflexivity.
Qed.

(** * C195: elements with the attribute are rendered, and everything else stays *)
Definition ems : str := B "*a* *a* *a* *a* *a* *a* *a* *a* *a* *a* *a* *a*".
Definition ems_html : str := B "<p><em>a</em> <em>a</em> <em>a</em> <em>a</em> <em>a</em> <em>a</em> <em>a</em> <em>a</em> <em>a</em> <em>a</em> <em>a</em> <em>a</em></p>" ++ [NL].
Theorem C195_refuted : exists render text h, Page render text h /\ process render text = Out (B "<b></b>" ++ [NL]) /\ h = B "<b>" ++ ems_html ++ B "</b>" ++ [NL].
Proof.
  exists (fun _ => ems_html), (bolded (B "1") ems), (B "<b>" ++ ems_html ++ B "</b>" ++ [NL]). split; [|split; [vm_compute; reflexivity|reflexivity]].
  apply (bolded_page (fun _ => ems_html)); [reflexivity|reflexivity|discriminate].
Qed.
Print Assumptions C195_refuted.
Theorem C195_partial render text h : Page render text h -> length h < 2 * length text -> process render text = Out h.
Proof. exact (process_page render text h). Qed.
Print Assumptions C195_partial.
Definition para (c : str) : str := B "<p>" ++ c ++ B "</p>" ++ [NL].
(** an element in an element *)
Definition outer (c : str) : str := start_tag (B "div") [B "id=x"] ([DQ] ++ B "block" ++ [DQ]) [] ++ c ++ (B "</div>") ++ [].
Example C195_case : Page para (outer (bolded (B "1") (B "y"))) (B "<div id=x>" ++ para (B "<b>" ++ para (B "y") ++ B "</b>" ++ [NL]) ++ B "</div>" ++ [NL]) /\
  process para (outer (bolded (B "1") (B "y"))) = Out (B "<div id=x>" ++ para (B "<b>" ++ para (B "y") ++ B "</b>" ++ [NL]) ++ B "</div>" ++ [NL]).
Proof.
  split; [|vm_compute; reflexivity].
  apply (Pg_markdown para [] (B "div") [B "id=x"] (B "block") ([DQ] ++ B "block" ++ [DQ]) [] (bolded (B "1") (B "y")) (B "<b>" ++ para (B "y") ++ B "</b>" ++ [NL]) (para (B "<b>" ++ para (B "y") ++ B "</b>" ++ [NL])) (B "</div>") [] []).
  - apply settled_text; reflexivity.
  - split; [apply name_ok; [reflexivity|cbn; lia]|]. split; [constructor; [apply other_ok; reflexivity|constructor]|]. split; [apply quoted_ok; try reflexivity; cbn; lia|constructor].
  - cbn. lia.
  - assert (NN : forall c, Nested (B "div") 0 c -> forall d, ~ opens (B "div") (d :: c) -> ~ closes (B "div") (d :: c) -> Nested (B "div") 0 (d :: c)) by (intros; apply Ne_byte; assumption).
    assert (NO : forall s, start_at (B "div") s = false -> ~ opens (B "div") s) by (intros s F O; apply start_spec in O; [congruence|apply name_ok; [reflexivity|cbn; lia]]).
    assert (NC : forall s, end_at (B "div") s = false -> ~ closes (B "div") s) by (intros s F O; apply end_spec in O; congruence).
    repeat (apply NN; [|apply NO; vm_compute; reflexivity|apply NC; vm_compute; reflexivity]). constructor.
  - apply (end_ok (B "div")).
  - discriminate.
  - apply bolded_page; [reflexivity|reflexivity|discriminate].
  - cbn. lia.
  - left. split; [right; reflexivity|reflexivity].
  - apply Pg_rest, no_key_plain, keyless. reflexivity.
Qed.

(** * C196: no store outside of the buffers *)
Definition items (x : str) : str := concat (repeat x 9).
(** a list of nine items is rendered so *)
Definition list_html : str := B "<ul>" ++ [NL] ++ items (B "<li>a</li>" ++ [NL]) ++ B "</ul>" ++ [NL].
Theorem C196_refuted : (forall render, process render [] = Bad) /\
  (exists render text, text <> [] /\ process render text = Bad) /\
  (exists t l1 v x l2, good_tag t l1 v x l2 /\ opening t (start_tag t l1 x l2) = None).
Proof.
  split; [reflexivity|]. split.
  - exists (fun _ => list_html), (B "<div markdown=""1"">" ++ [NL] ++ items (B "- a" ++ [NL]) ++ B "</div>"). split; [discriminate|vm_compute; reflexivity].
  - exists bold, [], (B "1"), ([DQ] ++ B "1" ++ [DQ]), [repeat "x"%char 2044]. split; [|vm_compute; reflexivity].
    split; [apply name_ok; [reflexivity|cbn; lia]|]. split; [constructor|]. split; [apply quoted_ok; try reflexivity; cbn; lia|]. constructor; [apply other_ok; vm_compute; reflexivity|constructor].
Qed.
Print Assumptions C196_refuted.
Theorem C196_partial render text h : Page render text h -> length h < 2 * length text -> process render text <> Bad.
Proof. intros P L. rewrite (process_page render text h P L). discriminate. Qed.
Print Assumptions C196_partial.

(** * C197: the attribute is taken out, the other attributes stay in their order *)
Theorem C197_refuted : (forall render, process render (bolded (B "1") []) = Out (bolded (B "1") [])) /\
  (forall render c, render c = B "y" -> c = B "x" -> process render (B "<b" ++ [NL] ++ B "id=""u"" markdown=""1"">x</b>") = Out (B "<b>y</b>" ++ [NL])).
Proof. split; [intros; vm_compute; reflexivity|]. intros render c R ->. vm_compute in R. vm_compute. rewrite R. reflexivity. Qed.
Print Assumptions C197_refuted.
Theorem C197_partial render t l1 v x l2 c close : good_tag t l1 v x l2 -> block v -> c <> [] -> plain c -> Nested t 0 c -> end_tag t close ->
  length (tag t (l1 ++ l2)) < 2048 -> length (tag t (l1 ++ l2)) + length (render c) + length close + 1 < 2 * length (start_tag t l1 x l2 ++ c ++ close) ->
  process render (start_tag t l1 x l2 ++ c ++ close) = Out (tag t (l1 ++ l2) ++ render c ++ close ++ [NL]).
Proof.
  intros G Bv Z K N E Lt L. apply process_page; [|rewrite (app_length (tag _ _)), (app_length (render c)), (app_length close); cbn [length]; lia].
  assert (S : settled []) by (apply settled_text; reflexivity).
  pose proof (Pg_markdown render [] t l1 v x l2 c c (render c) close [] [] S G Lt N E Z (Pg_rest render c K)) as P. rewrite !app_nil_r in P. apply P.
  - destruct c; [congruence|cbn [length]; lia].
  - left. split; [exact Bv|reflexivity].
  - apply Pg_rest, no_key_plain, keyless. reflexivity.
Qed.
Print Assumptions C197_partial.
Example C197_case : process para (start_tag (B "div") [B "class=""u v"; B "w"""] ([DQ] ++ B "1" ++ [DQ]) [B "id=k"] ++ B "x" ++ B "</DIV>") = Out (B "<div class=""u v w"" id=k>" ++ para (B "x") ++ B "</DIV>" ++ [NL]) /\
  word_b (B "w""") = true.
Proof. vm_compute. auto. Qed.

(** * C198: a text whose tags have no such attribute is unchanged *)
Theorem C198_unmarked render text : plain text -> text <> [] -> process render text = Out text.
Proof. intros P Z. apply process_page; [apply Pg_rest, P|]. destruct text; [congruence|cbn [length]; lia]. Qed.
Print Assumptions C198_unmarked.
Example C198_case : exists text, plain text /\ has S_HtmlMd.key text /\ (exists a b, text = a ++ B "<b>" ++ b) /\ process para text = Out text.
Proof.
  exists (B "Write <b>markdown=1</b> there"). split; [|split; [|split; [|vm_compute; reflexivity]]].
  - apply plain_ok. vm_compute. reflexivity.
  - exists (B "Write <b>"), (B "1</b> there"). reflexivity.
  - exists (B "Write "), (B "markdown=1</b> there"). reflexivity.
Qed.

(** * C199: only elements with the attribute are rendered *)
Theorem C199_refuted : forall render, render (B "*a*") = para (B "<em>a</em>") ->
  process render (B "<p title=""see markdown=1 below"">*a*</p>") = Out (B "<p title=""see below"">" ++ para (B "<em>a</em>") ++ B "</p>" ++ [NL]).
Proof. intros render R. vm_compute in R. vm_compute. rewrite R. reflexivity. Qed.
Print Assumptions C199_refuted.

(** * C200: with any other value the element is copied as it is *)
Theorem C200_literal render a t l1 v x l2 c close s : settled a -> good_tag t l1 v x l2 -> ~ block v -> ~ inline v -> Nested t 0 c -> end_tag t close -> plain s ->
  process render (a ++ start_tag t l1 x l2 ++ c ++ close ++ s) = Out (a ++ start_tag t l1 x l2 ++ c ++ close ++ s).
Proof.
  intros S G NB NI N E P. apply process_page; [apply (Pg_literal render a t l1 v x l2 c close s s); try assumption; apply Pg_rest, P|].
  assert (L : 0 < length (a ++ start_tag t l1 x l2 ++ c ++ close ++ s)) by (rewrite !app_length; unfold start_tag; rewrite tag_length; lia). lia.
Qed.
Print Assumptions C200_literal.
Example C200_case : process para (B "x" ++ bolded (B "0") (B "*a*" ++ bolded (B "1") (B "*a*") ++ B "z") ++ B "w") = Out (B "x" ++ bolded (B "0") (B "*a*" ++ bolded (B "1") (B "*a*") ++ B "z") ++ B "w") /\
  good_tag bold [] (B "0") ([DQ] ++ B "0" ++ [DQ]) [] /\ settled (B "x") /\ end_tag bold (B "</b>").
Proof. split; [vm_compute; reflexivity|]. split; [apply bold_good; try reflexivity; cbn; lia|]. split; [apply settled_text; reflexivity|apply (end_ok bold)]. Qed.

(** * C201: an inline element does not break its line *)
Theorem C201_refuted render a t l1 v x l2 c html close s : settled a -> good_tag t l1 v x l2 -> inline v -> c <> [] -> plain c -> Nested t 0 c -> end_tag t close -> Unwrapped (render c) html -> plain s ->
  length (tag t (l1 ++ l2)) < 2048 -> length a + length (tag t (l1 ++ l2)) + length html + length close + 1 + length s < 2 * length (a ++ start_tag t l1 x l2 ++ c ++ close ++ s) ->
  process render (a ++ start_tag t l1 x l2 ++ c ++ close ++ s) = Out (a ++ tag t (l1 ++ l2) ++ html ++ close ++ [NL] ++ s).
Proof.
  intros S G I Z K N E U P Lt L. apply process_page; [|rewrite (app_length a), (app_length (tag _ _)), (app_length html), (app_length close), (app_length [NL]); cbn [length]; lia].
  apply (Pg_markdown render a t l1 v x l2 c c html close s s); try assumption.
  - apply Pg_rest, K.
  - destruct c; [congruence|cbn [length]; lia].
  - right. auto.
  - apply Pg_rest, P.
Qed.
Print Assumptions C201_refuted.
Example C201_case : process para (B "see " ++ bolded (B "span") (B "x") ++ B ".") = Out (B "see <b>x</b>" ++ [NL] ++ B ".") /\ Unwrapped (para (B "x")) (B "x").
Proof. split; [vm_compute; reflexivity|]. apply (U_p (B "x")). Qed.

(** * C202: tags in code are not rendered *)
Theorem C202_refuted render a t l1 v x l2 c close s : settled a -> good_tag t l1 v x l2 -> block v -> c <> [] -> plain c -> Nested t 0 c -> end_tag t close -> plain s ->
  length (tag t (l1 ++ l2)) < 2048 -> length a + length (tag t (l1 ++ l2)) + length (render c) + length close + 1 + length s < 2 * length (a ++ start_tag t l1 x l2 ++ c ++ close ++ s) ->
  process render (a ++ start_tag t l1 x l2 ++ c ++ close ++ s) <> Out (a ++ start_tag t l1 x l2 ++ c ++ close ++ s).
Proof.
  intros S G Bv Z K N E P Lt L. rewrite (process_page render _ (a ++ tag t (l1 ++ l2) ++ render c ++ close ++ [NL] ++ s)).
  - intros Q. injection Q as Q. apply app_inv_head in Q. exact (tag_differs t l1 v x l2 _ _ G Q).
  - apply (Pg_markdown render a t l1 v x l2 c c (render c) close s s); try assumption.
    + apply Pg_rest, K.
    + destruct c; [congruence|cbn [length]; lia].
    + left. auto.
    + apply Pg_rest, P.
  - rewrite (app_length a), (app_length (tag _ _)), (app_length (render c)), (app_length close), (app_length [NL]). cbn [length]. lia.
Qed.
Print Assumptions C202_refuted.
Example C202_case : process para (B "```" ++ [NL] ++ bolded (B "1") (B "x") ++ [NL] ++ B "```") = Out (B "```" ++ [NL] ++ B "<b>" ++ para (B "x") ++ B "</b>" ++ [NL; NL] ++ B "```") /\ settled (B "```" ++ [NL]).
Proof. split; [vm_compute; reflexivity|apply settled_text; reflexivity]. Qed.
