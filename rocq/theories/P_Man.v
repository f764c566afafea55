(** Properties C115 to C120: the man page output. *)
From Verif Require Import Base BaseL Dec M_Md S_Md M_Man S_Man L_Man L_Man2.

Definition text (s : str) : node := Node (Text s) [].
Definition cells : node := Node Other [Node Other [Node Other [text (B "cell")]]].
Definition para (s : str) : node := Node Paragraph [text s].
Definition raw (s : str) : node := Node (HtmlBlock (Some s)) [].
Definition two_defs : str :=
  B "<dl>" ++ [NL] ++ B "<dt>a</dt>" ++ [NL] ++ B "<dd>b</dd>" ++ [NL] ++ B "<dt>c</dt>" ++ [NL] ++ B "<dd>d</dd>" ++ [NL] ++ B "</dl>" ++ [NL].

(** C115.  In full: the man page says what the document says, and its requests are balanced.
    [forall dd ch, exists out dd', to_roff dd (Node Document ch) = Some (out, dd') /\
    visible (roff_text out) = visible (said (Node Document ch)) /\ balanced [] (roff_requests out).]
    Refuted: HTML blocks are dropped; of a definition list in HTML only the first
    definition is written; a block of another type (a table) loses its cells. *)
Theorem C115_refuted :
  option_map (fun x => roff_text (fst x)) (to_roff false (Node Document [raw (B "<p>lost</p>")])) = Some [] /\
  option_map (fun x => visible (roff_text (fst x))) (to_roff false (Node Document [raw two_defs])) = Some (B "ab") /\
  option_map (fun x => roff_text (fst x)) (to_roff false (Node Document [cells])) = Some [] /\ said cells = B "cell".
Proof. vm_compute. auto. Qed.
Print Assumptions C115_refuted.
Theorem C115_partial : forall dd ch, man_block (Node Document ch) -> exists out dd', to_roff dd (Node Document ch) = Some (out, dd') /\
  visible (roff_text out) = visible (said (Node Document ch)) /\ balanced [] (roff_requests out).
Proof. exact to_roff_ok. Qed.
Print Assumptions C115_partial.
Definition sample : node := Node Document [Node (Heading 1) [text (B "ls - list")];
  Node Quote [Node Paragraph [text (B ".x \y"); Node Soft []; Node Strong [text (B "b")]; Node (Link (Some (B "u")) None) [text (B "l")]]];
  Node (Lst false 1) [Node (Item 1) [para (B "one")]]].
Example C115_case : man_block sample /\
  option_map (fun x => (visible (roff_text (fst x)), roff_requests (fst x))) (to_roff false sample) =
  Some (B "ls-list.x\yblu" ++ B "one", [B "TH"; B "SH"; B "RS"; B "PP"; B "RE"; B "IP"]).
Proof.
  split; [cbn; intuition discriminate|]. vm_compute. reflexivity.
Qed.

(** C116.  Whatever has been written before, text added to the page is read as that text: nothing in it is
    taken for a request or an escape.  (The shorter dash is read as --.) *)
Theorem C116 : forall b m s, run Start b = (m, snd (run Start b)) -> m = Start \/ m = Txt ->
  (at_start b = true <-> m = Start) ->
  snd (run Start (add_roff b s)) = snd (run Start b) ++ map Ch (dashes s).
Proof.
  intros b m s R M A.
  assert (G : good b (snd (run Start b))).
  { unfold good. rewrite R at 1. f_equal. destruct M as [-> | ->].
    - replace (at_start b) with true by (symmetry; apply A; reflexivity). reflexivity.
    - destruct (at_start b); [|reflexivity]. destruct A as [A _]. discriminate (A eq_refl). }
  pose proof (good_roff b _ s G) as H. unfold good in H. rewrite H. reflexivity.
Qed.
Print Assumptions C116.
Example C116_case : add_roff (B "x" ++ [NL]) (B ".SH 'a\b" ++ [NL] ++ B "-'") = B "x" ++ [NL] ++ B "\&.SH 'a\eb" ++ [NL] ++ B "\-'" /\
  run Start (B "x" ++ [NL]) = (Start, [Ch "x"; Ch NL]%char) /\ at_start (B "x" ++ [NL]) = true.
Proof. vm_compute. auto. Qed.

(** C117.  In full: the conversion ends.  [forall b s, exists x, fragment_of b s = Some x.]  Refuted: an
    ampersand that begins none of five entities, or a < without >, stops a definition list for ever:
    [fragment fuel b s = None] whatever the fuel. *)
Theorem C117_refuted : forall fuel b,
  fragment fuel b (B "R&D") = None /\ fragment fuel b (B "a &copy; b") = None /\ fragment fuel b (B "a < b") = None.
Proof. intros fuel b. repeat split; apply fragment_hangs; intros (l & P & E); pose proof (proj2 (fragment_ends [] _) (ex_intro _ l (conj P E))) as [x H]; vm_compute in H; discriminate H. Qed.
Print Assumptions C117_refuted.
Theorem C117_doc_refuted : forall dd, to_roff dd (Node Document [raw (dl_html (B "R&D") (B "x"))]) = None.
Proof. intros [|]; vm_compute; reflexivity. Qed.
Print Assumptions C117_doc_refuted.
Theorem C117_partial : forall s,
  ((exists l, pieces_ok l /\ s = concat (map html_of l)) -> forall b, exists x, fragment_of b s = Some x) /\
  (~ (exists l, pieces_ok l /\ s = concat (map html_of l)) -> forall fuel b, fragment fuel b s = None).
Proof. intros s. split; [intros H b; apply fragment_ends; exact H|exact (fragment_hangs s)]. Qed.
Print Assumptions C117_partial.
Example C117_case : pieces_ok [Plain (B "R"); Ent "&"%char; Plain (B "D "); Tag (B "b"); Plain (B "x"); Tag (B "/b")] /\
  concat (map html_of [Plain (B "R"); Ent "&"%char; Plain (B "D "); Tag (B "b"); Plain (B "x"); Tag (B "/b")]) = B "R&amp;D <b>x</b>".
Proof. split; [cbn; intuition discriminate|vm_compute; reflexivity]. Qed.

(** C118.  In full: a definition list in HTML is shown as its terms and definitions, with their fonts.
    [forall lt ld b e, pieces_ok lt -> pieces_ok ld -> good b e -> exists b' e', render_dl b (dl_html (html lt) (html ld)) = Some (Some b')
    /\ shown_text e' = ... /\ requests e' = [TP].]  Refuted: an apostrophe written as &#39; at the start makes the line a request,
    so that it is not shown; <em> does not change the font, since its length is compared with 5. *)
Theorem C118_refuted :
  (exists b', render_dl (B "x" ++ [NL]) (dl_html (html_of (Ent SQ) ++ B "til") (B "now")) = Some (Some b') /\
     visible (roff_text b') = B "xnow") /\
  (forall b, fragment_of b (B "<em>a</em>") = Some (add_roff b (B "a"))).
Proof.
  split; [eexists; split; [vm_compute; reflexivity|vm_compute; reflexivity]|].
  intros b. unfold fragment_of. change (B "<em>a</em>") with (html [Tag (B "em"); Plain (B "a"); Tag (B "/em")]).
  rewrite fragment_pieces; [|cbn; intuition discriminate|lia]. cbn [fold_left put_piece]. 
  change (tag_roff (B "<" ++ B "em" ++ B ">")) with (@nil ascii). change (tag_roff (B "<" ++ B "/em" ++ B ">")) with (@nil ascii).
  rewrite !app_nil_r. reflexivity.
Qed.
Print Assumptions C118_refuted.
Theorem C118_partial : forall lt ld b m, pieces_ok lt -> pieces_ok ld -> ~ In (Ent SQ) (lt ++ ld) ->
  no_d (concat (map html_of lt)) -> no_d (concat (map html_of ld)) ->
  blank_start (concat (map html_of lt)) = false -> blank_start (concat (map html_of ld)) = false ->
  fst (run Start b) = m -> (if at_start b then m = Start else m = Txt) ->
  exists b', render_dl b (dl_html (concat (map html_of lt)) (concat (map html_of ld))) = Some (Some b') /\
    roff_text b' = roff_text b ++ [NL] ++ concat (map meaning lt) ++ [NL] ++ concat (map meaning ld) ++ [NL] /\
    roff_requests b' = roff_requests b ++ [B "TP"].
Proof.
  intros lt ld b m P1 P2 N D1 D2 B1 B2 R M.
  assert (G : good b (snd (run Start b))).
  { unfold good. rewrite (surjective_pairing (run Start b)) at 1. rewrite R. destruct (at_start b); rewrite M; reflexivity. }
  destruct (render_dl_ok lt ld b _ P1 P2 N D1 D2 B1 B2 G) as (b' & e' & E & G' & W & Q).
  exists b'. split; [exact E|]. unfold roff_text, roff_requests. unfold good in G'. rewrite G'. cbn [snd].
  rewrite shown_app, requests_app, W, Q. auto.
Qed.
Print Assumptions C118_partial.
Theorem C118_fonts : forall b x, x <> [] -> ~ In "<"%char x -> ~ In "&"%char x ->
  fragment_of b (B "<strong>" ++ x ++ B "</strong>") = Some (add_roff (b ++ B "\f[B]") x ++ B "\f[]") /\
  fragment_of b (B "<code>" ++ x ++ B "</code>") = Some (add_roff (b ++ B "\fR") x ++ B "\f[]").
Proof.
  intros b x X N1 N2. unfold fragment_of. split.
  - change (B "<strong>" ++ x ++ B "</strong>") with (html [Tag (B "strong"); Plain x; Tag (B "/strong")]).
    rewrite fragment_pieces; [reflexivity|cbn; intuition discriminate|lia].
  - change (B "<code>" ++ x ++ B "</code>") with (html [Tag (B "code"); Plain x; Tag (B "/code")]).
    rewrite fragment_pieces; [reflexivity|cbn; intuition discriminate|lia].
Qed.
Print Assumptions C118_fonts.
Example C118_case : exists b', render_dl (B "x") (dl_html (B "R&amp;D") (B "a <b>c</b>")) = Some (Some b') /\
  roff_text b' = B "x" ++ [NL] ++ B "R&D" ++ [NL] ++ B "a c" ++ [NL] /\ no_d (B "R&amp;D") /\ no_d (B "a <b>c</b>").
Proof.
  eexists. split; [vm_compute; reflexivity|]. split; [vm_compute; reflexivity|].
  assert (K : forall s, strstr (B "<d") s = None -> strstr (B "</d") s = None -> no_d s).
  { intros s H1 H2 a b. split; [exact (strstr_none _ _ H1 a b)|exact (strstr_none _ _ H2 a b)]. }
  split; apply K; vm_compute; reflexivity.
Qed.

(** C119.  In full: the page depends on the document only.  [forall dd dd' doc, to_roff dd doc = to_roff dd' doc.]
    Refuted: a document that ends with a definition list in HTML leaves a static set, and the first paragraph of
    the next document is then written without its .PP. *)
Theorem C119_refuted : exists doc1 out1 doc2 out2 dd,
  to_roff false doc1 = Some (out1, true) /\ to_roff false doc2 = Some (out2, dd) /\ to_roff true doc2 <> to_roff false doc2 /\
  option_map (fun x => roff_requests (fst x)) (to_roff true doc2) = Some [B "TH"] /\ roff_requests out2 = [B "TH"; B "PP"].
Proof.
  exists (Node Document [raw (dl_html (B "a") (B "b"))]). eexists. exists (Node Document [para (B "x")]). eexists. eexists.
  split; [vm_compute; reflexivity|]. split; [vm_compute; reflexivity|]. split; [vm_compute; discriminate|].
  split; vm_compute; reflexivity.
Qed.
Print Assumptions C119_refuted.
Theorem C119_partial :
  (forall ch out dd, Forall no_html ch -> to_roff false (Node Document ch) = Some (out, dd) -> dd = false) /\
  (forall level h ch dd dd', to_roff dd (Node Document (Node (Heading level) h :: ch)) = to_roff dd' (Node Document (Node (Heading level) h :: ch))).
Proof. split; [exact flag_to_roff|reflexivity]. Qed.
Print Assumptions C119_partial.
Example C119_case : Forall no_html [para (B "a"); Node Quote [para (B "b")]].
Proof. repeat constructor. Qed.

(** C120.  In full: the title of the page is the text of the first heading.
    [forall t, exists y x r, title_line t = B ".TH " ++ [DQ] ++ y /\ quoted_arg y = Some (x, r) /\ shown_text (snd (run Txt x)) = dashes t.]
    Refuted: a quotation mark in the title ends it. *)
Theorem C120_refuted : exists y x r, title_line (B "the " ++ [DQ] ++ B "x" ++ [DQ] ++ B " page") = B ".TH " ++ [DQ] ++ y /\
  quoted_arg y = Some (x, r) /\ x = B "the ".
Proof.
  eexists. exists (B "the "). eexists. split; [vm_compute; reflexivity|]. split; [vm_compute; reflexivity|reflexivity].
Qed.
Print Assumptions C120_refuted.
Theorem C120_partial : forall t, ~ In DQ t -> exists y x r, title_line t = B ".TH " ++ [DQ] ++ y /\ quoted_arg y = Some (x, r) /\
  shown_text (snd (run Txt x)) = dashes t.
Proof. exact title_ok. Qed.
Print Assumptions C120_partial.
Theorem C120_first : forall dd level h pre ch, Forall (fun n => forall c, kind_of n <> Heading c) pre -> level = 1 -> plain_text (Node (Heading level) h) <> [] ->
  forall out dd', to_roff dd (Node Document (pre ++ Node (Heading level) h :: ch)) = Some (out, dd') ->
  block None true (Node Document (pre ++ Node (Heading level) h :: ch)) (title_line (plain_text (Node (Heading level) h))) dd = Some (out, dd').
Proof.
  intros dd level h pre ch F -> N out dd' H. unfold to_roff in H.
  replace (first_h1 (pre ++ Node (Heading 1) h :: ch)) with (Some (plain_text (Node (Heading 1) h))) in H; [exact H|].
  clear H. induction F as [|n pre K _ IH]; cbn [app first_h1].
  - destruct (plain_text (Node (Heading 1) h)); [contradiction|reflexivity].
  - destruct n as [k x]. destruct k; try exact IH. destruct (K level eq_refl).
Qed.
Print Assumptions C120_first.
Example C120_case : exists y x r, title_line (B "ls - list \x") = B ".TH " ++ [DQ] ++ y /\ quoted_arg y = Some (x, r) /\ x = B "ls \- list \ex".
Proof. eexists. exists (B "ls \- list \ex"). eexists. split; [vm_compute; reflexivity|]. split; [vm_compute; reflexivity|reflexivity]. Qed.
