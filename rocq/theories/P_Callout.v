(** Properties C128 to C131: callouts. *)
From Verif Require Import Base BaseL M_Md M_Callout S_ManHtml S_Callout L_Callout.

Definition text (s : str) : node := Node (Text s) [].
Definition para (l : list node) : node := Node Paragraph l.
Definition quote (l : list node) : node := Node Quote l.

(** C128.  Exactly the quotes that begin with a callout marker, in any case of letters, become callouts; everything else keeps its kind and
    place (a callout keeps its quote, without the marker). *)
Theorem C128 : forall n, one_line_texts n -> framed n (process n).
Proof. exact process_framed. Qed.
Print Assumptions C128.
Theorem C128_unchanged : forall n, one_line_texts n -> callout_free n -> process_document n = n.
Proof. intros n O F. unfold process_document. rewrite (process_free n O F). reflexivity. Qed.
Print Assumptions C128_unchanged.
Example C128_case :
  process_document (Node Document [para [text (B "[!NOTE] no")]; quote [para [text (B "[!Hint]- A"); Node Soft []; text (B "b")]]; quote [para [text (B "[!other] x")]]]) =
    Node Document [para [text (B "[!NOTE] no")];
      Node (HtmlBlock (Some (B "<details class=" ++ [DQ] ++ B "callout callout-tip" ++ [DQ] ++ B ">" ++ [NL] ++ B "<summary>A</summary>" ++ [NL] ++ B "<div class=" ++ [DQ] ++ B "callout-content" ++ [DQ] ++ B ">" ++ [NL]))) [];
      quote [para [Node Soft []; text (B "b")]]; Node (HtmlBlock (Some ([NL] ++ B "</div>" ++ [NL] ++ B "</details>"))) []; quote [para [text (B "[!other] x")]]].
Proof. vm_compute. reflexivity. Qed.

(** C129.  In full: a callout is framed by the tags of its class and folding, which close, and the title is shown in them.
    [forall n class f title, one_line_texts n -> callout_quote n class f title -> exists before m after,
       process n = [Node (HtmlBlock (Some before)) []; m; Node (HtmlBlock (Some after)) []] /\
       complete before /\ complete after /\ tags_of before = fst (frame_tags class f) /\ tags_of after = snd (frame_tags class f) /\
       text_of before = [NL] ++ (match title with [] => class | _ => title end) ++ [NL; NL]].
    Refuted: a long title is cut off with the tags after it (html_start[1024]); a less-than sign of the title begins a tag. *)
Definition long_title : str := repeat "a"%char 1000.
Theorem C129_refuted :
  (exists before m after, process (quote [para [text (B "[!note]+ " ++ long_title)]]) = [Node (HtmlBlock (Some before)) []; m; Node (HtmlBlock (Some after)) []] /\
    tags_of before = firstn 2 (fst (frame_tags (B "note") Opened)) /\ ~ nested [] (tags_of (before ++ after))) /\
  (exists before m after, process (quote [para [text (B "[!note] a < b")]]) = [Node (HtmlBlock (Some before)) []; m; Node (HtmlBlock (Some after)) []] /\
    text_of before = [NL] ++ B "a " ++ [NL; NL]).
Proof.
  split; (eexists; eexists; eexists; split; [vm_compute; reflexivity|]); [|vm_compute; reflexivity].
  split; [vm_compute; reflexivity|]. vm_compute. intuition discriminate.
Qed.
Print Assumptions C129_refuted.
Theorem C129_partial : forall n class f title, one_line_texts n -> callout_quote n class f title ->
  length title <= 900 -> ~ In "<"%char title -> ~ In "&"%char title ->
  exists before m after, process n = [Node (HtmlBlock (Some before)) []; m; Node (HtmlBlock (Some after)) []] /\
    complete before /\ complete after /\ tags_of before = fst (frame_tags class f) /\ tags_of after = snd (frame_tags class f) /\
    text_of before = [NL] ++ (match title with [] => class | _ => title end) ++ [NL; NL].
Proof. exact callout_frame. Qed.
Print Assumptions C129_partial.
(** The tags of the frame close each other. *)
Theorem C129_nested : forall class f, ~ In " "%char class -> nested [] (fst (frame_tags class f) ++ snd (frame_tags class f)).
Proof. intros class [] _; repeat split. Qed.
Print Assumptions C129_nested.
Example C129_case : callout_quote (quote [para [text (B "[!WaRnInG]+  Be careful"); Node Soft []; text (B "x")]]) (B "warning") Opened (B "Be careful").
Proof.
  exists (B "[!WaRnInG]+  Be careful"), [], [Node Soft []; text (B "x")], []. split; [reflexivity|]. exists (B "WaRnInG"), (B "  "). split; [reflexivity|].
  split; [exists [B "warning"; B "caution"; B "attention"], (B "warning"); split; [cbn; auto 20|split; [left; reflexivity|reflexivity]]|].
  split; [repeat constructor|]. split; [intros c x [= <- <-]; split; discriminate|discriminate].
Qed.

(** C130.  In full: the document says what it said, with the titles of the callouts for their markers.
    [forall n, one_line_texts n -> exists t, shows n t /\ visible (concat (map out (process n))) = visible t.]
    Refuted: a callout within a callout is left as it is (and see C129). *)
Definition inner : node := quote [para [text (B "[!tip] in")]].
Theorem C130_refuted : let n := quote [para [text (B "[!note] out")]; inner] in
  shows n (B "outin") /\ visible (concat (map out (process n))) = B "out[!tip]in".
Proof.
  split; [|vm_compute; reflexivity].
  assert (M : forall name class title, means name class -> (forall c x, title = c :: x -> c <> SP /\ c <> TAB) -> marker (B "[!" ++ name ++ B "] " ++ title) class Plain title).
  { intros name class title ME T. exists name, (B " "). split; [reflexivity|]. split; [exact ME|]. split; [repeat constructor|]. split; [exact T|discriminate]. }
  apply (Shows_callout _ [] [] [inner] (B "note") Plain (B "out") [B "in"]).
  - apply (M (B "note")); [exists [B "note"], (B "note"); cbn; repeat split; auto|intros c x [= <- <-]; split; discriminate].
  - constructor; [|constructor]. apply (Shows_callout _ [] [] [] (B "tip") Plain (B "in") []); [|constructor].
    apply (M (B "tip")); [exists [B "tip"; B "hint"; B "important"], (B "tip"); cbn; repeat split; auto 20|intros c x [= <- <-]; split; discriminate].
Qed.
Print Assumptions C130_refuted.
Theorem C130_partial : forall n, orderly n -> exists t, shows n t /\ visible (concat (map out (process n))) = visible t.
Proof. exact process_shows. Qed.
Print Assumptions C130_partial.
Definition sample : node := Node Document [quote [para [text (B "[!Hint]- A"); Node Soft []; text (B "b")]]; para [text (B "c")]].
Example C130_case : orderly sample /\ visible (concat (map out (process sample))) = B "Abc".
Proof.
  split; [|vm_compute; reflexivity].
  assert (W : forall m, within m sample -> In m [sample; quote [para [text (B "[!Hint]- A"); Node Soft []; text (B "b")]]; para [text (B "[!Hint]- A"); Node Soft []; text (B "b")];
    text (B "[!Hint]- A"); Node Soft []; text (B "b"); para [text (B "c")]; text (B "c")]).
  { intros m W. cbn [In]. repeat (match goal with H : within _ _ |- _ => inversion H; subst; clear H end; cbn in *; auto 12;
      repeat match goal with H : _ \/ _ |- _ => destruct H as [<-|H] end; try contradiction). }
  split.
  - intros s tc H. apply W in H. repeat destruct H as [H|H]; try discriminate H; try contradiction; injection H as <- <-; intros J; repeat destruct J as [J|J]; try discriminate J; contradiction.
  - intros m class f title H (t & tc & ps & ch & -> & name & gap & E & M & G & _). apply W in H. repeat destruct H as [H|H]; try discriminate H; try contradiction.
    injection H as <- <- <- <-.
    assert (I : forall c, In c title -> In c (B "[!Hint]- A")) by (intros c J; match type of E with _ = ?r => assert (K : In c r) by (rewrite !in_app_iff; auto 10) end; rewrite <- E in K; exact K).
    split; [apply (f_equal (@length _)) in E; rewrite !app_length in E; cbn [length B list_ascii_of_string] in E; lia|].
    split; [intros J; apply I in J; repeat destruct J as [J|J]; try discriminate J; contradiction|].
    split; [intros J; apply I in J; repeat destruct J as [J|J]; try discriminate J; contradiction|].
    intros c [<-|[]] m class' f' title' Wm (t' & tc' & ps' & ch' & -> & _).
    repeat (match goal with H : within _ _ |- _ => inversion H; subst; clear H end; cbn in *; auto 12;
      repeat match goal with H : _ \/ _ |- _ => destruct H as [<-|H] end; try contradiction).
Qed.

(** C131.  In full: the title of a callout is the rest of its first line.  [In a quote whose first paragraph has the inlines l and
    then a line end, the title shows what l shows after the marker.]  Refuted: only the first text counts, so that what follows marked-up text
    goes to the content. *)
Theorem C131_refuted : let n := quote [para [text (B "[!note] a "); Node Emph [text (B "b")]; text (B " c"); Node Soft []; text (B "d")]] in
  exists before after, process n = [Node (HtmlBlock (Some before)) []; quote [para [Node Emph [text (B "b")]; text (B " c"); Node Soft []; text (B "d")]]; Node (HtmlBlock (Some after)) []] /\
    text_of before = [NL] ++ B "a " ++ [NL; NL].
Proof. eexists. eexists. split; [vm_compute; reflexivity|vm_compute; reflexivity]. Qed.
Print Assumptions C131_refuted.
(** When the first line is one text, the title is all of it, and the content is what follows. *)
Theorem C131_partial : forall t ps ch class f title, ~ In NL t -> marker t class f title ->
  length title <= 900 -> ~ In "<"%char title -> ~ In "&"%char title ->
  exists before after, process (quote (para (text t :: Node Soft [] :: ps) :: ch)) = [Node (HtmlBlock (Some before)) []; quote (para (Node Soft [] :: ps) :: ch); Node (HtmlBlock (Some after)) []] /\
    text_of before = [NL] ++ (match title with [] => class | _ => title end) ++ [NL; NL].
Proof.
  intros t ps ch class f title N M L N1 N2. destruct (callout_line t [] (Node Soft [] :: ps) ch class f title N M L N1 N2) as (b & a & E & T & _). exists b, a. auto.
Qed.
Print Assumptions C131_partial.
Example C131_case : marker (B "[!bug]") (B "bug") Plain [].
Proof.
  exists (B "bug"), []. split; [reflexivity|]. split; [exists [B "bug"], (B "bug"); split; [cbn; auto 20|split; [left; reflexivity|reflexivity]]|].
  split; [constructor|]. split; [discriminate|intros _ _ c x E; discriminate E].
Qed.
