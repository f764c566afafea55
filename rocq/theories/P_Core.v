(** C22-C24, C65, C66: buffer, UTF-8 check, escaping, rendering, minimal parser. *)
From Verif Require Import Base BaseL M_Core S_Core L_Core.

(** ** C22 *)
(** After any sequence of operations in which nothing is appended to a buffer that
    was freed or detached, the block holds exactly the string built so far and its
    terminator. *)
Theorem C22_buffer_partial n os x :
  on_strings os (Some []) = Some x ->
  exists b, buffer_run (Init n :: os) (Buf None 0 0) = Go b /\ holds b x.
Proof.
  intros H. cbn [buffer_run buffer_op]. destruct (init_holds n) as (b & -> & HB). exact (run_ok os _ _ _ HB H).
Qed.
Print Assumptions C22_buffer_partial.
Example C22_case :
  on_strings [Append (B "ab"); Clear; Append (B "cde"); Append [NUL]; Append (B "f")] (Some []) = Some (Some (B "cde" ++ [NUL] ++ B "f")) /\
  exists m, buffer_run [Init 2; Append (B "ab"); Clear; Append (B "cde"); Append [NUL]; Append (B "f")] (Buf None 0 0) = Go (Buf (Some m) 5 8).
Proof. split; [reflexivity|]. eexists. vm_compute. reflexivity. Qed.

(** Anything appended to a freed or detached buffer makes the growing loop run
    forever: doubling a capacity of 0 never gets anywhere. *)
Theorem C22_after_release_refuted n os s :
  on_strings os (Some []) = Some None -> s <> [] ->
  buffer_run (Init n :: os ++ [Append s]) (Buf None 0 0) = Hang.
Proof.
  intros H N. destruct (C22_buffer_partial n os None H) as (b & E & HB).
  change (Init n :: os ++ [Append s]) with ((Init n :: os) ++ [Append s]). rewrite run_app, E. cbn [buffer_run buffer_op].
  rewrite append_hang by assumption. reflexivity.
Qed.
Print Assumptions C22_after_release_refuted.
Theorem C22_hang_refuted fuel needed : 0 < needed -> grow_to fuel 0 needed = None.
Proof. exact (grow_hang fuel needed). Qed.
Print Assumptions C22_hang_refuted.
Example C22_release_case : on_strings [Append (B "x"); Detach] (Some []) = Some None /\
  buffer_run [Init 0; Append (B "x"); Detach; Append (B "y")] (Buf None 0 0) = Hang.
Proof. split; vm_compute; reflexivity. Qed.

(** ** C23 *)
(** Exactly the texts whose lead bytes are followed by the continuation bytes they
    announce are accepted. *)
Theorem C23_framed s : utf8_validate s = true <-> exists l, Forall framed l /\ s = concat l.
Proof.
  split; [apply (utf8_sound (length s)); lia|]. intros (l & H & ->). exact (utf8_complete l H).
Qed.
Print Assumptions C23_framed.
Theorem C23_wellformed l : Forall wellformed l -> utf8_validate (concat l) = true.
Proof. intros H. apply utf8_complete. eapply Forall_impl; [apply wellformed_framed|exact H]. Qed.
Print Assumptions C23_wellformed.
Theorem C23_lengths c : (valid_start c = true <-> char_length c <> 0) /\ char_length c <= 4.
Proof.
  unfold valid_start, char_length.
  destruct (between 0 127 c), (between 192 223 c), (between 224 239 c), (between 240 247 c); cbn [orb]; split; try lia; split; intros; try discriminate; try reflexivity; try lia; congruence.
Qed.
Print Assumptions C23_lengths.
(** Overlong forms, surrogates and code points above U+10FFFF pass. *)
Theorem C23_ill_formed_refuted :
  ~ (forall s, utf8_validate s = true -> exists l, Forall wellformed l /\ s = concat l).
Proof.
  intros H. destruct (H ["192"; "128"]%char eq_refl) as (l & A & E). destruct l as [|u l]; [discriminate|].
  inversion A as [|? ? W _]; subst. cbn [concat] in E.
  destruct W; inversion E; subst;
    repeat match goal with
    | K : from_to _ _ _ |- _ => vm_compute in K
    | K : _ \/ _ |- _ => vm_compute in K
    end; intuition congruence.
Qed.
Print Assumptions C23_ill_formed_refuted.
Example C23_case : utf8_validate ["a"; "195"; "169"; "226"; "130"; "172"; "240"; "159"; "152"; "128"]%char = true /\
  utf8_validate ["226"; "130"]%char = false /\ utf8_validate ["a"; "128"]%char = false.
Proof. repeat split. Qed.

(** ** C24 *)
(** Escaped text reads back as the text, it can be read in no other way, and it
    has no markup bytes. *)
Theorem C24_escape s : reads (escape_html s) s /\ (forall t, reads (escape_html s) t -> t = s) /\
  (forall c, In c (escape_html s) -> ~ In c (B "<>""")).
Proof.
  split; [apply escape_reads|]. split; [intros t H; symmetry; exact (reads_fun _ _ (escape_reads s) _ H)|]. exact (escape_html_inert s).
Qed.
Print Assumptions C24_escape.
Theorem C24_injective s t : escape_html s = escape_html t -> s = t.
Proof. intros E. pose proof (escape_reads s) as H. rewrite E in H. exact (reads_fun _ _ H _ (escape_reads t)). Qed.
Print Assumptions C24_injective.
Example C24_case : escape_html (B "a<b> & ""c"" &lt;") = B "a&lt;b&gt; &amp; &quot;c&quot; &amp;lt;".
Proof. reflexivity. Qed.

(** ** C65 *)
(** Whatever strings a tree contains, reading the rendered HTML yields the elements,
    attributes and characters of the tree, nothing else, and there is no other way
    to read it. *)
Theorem C65_render o n : proper n ->
  html (render o n) (shape o n) [] /\ forall f r, html (render o n) f r -> f = shape o n /\ r = [].
Proof.
  intros H. pose proof (render_ok o n H) as R. split; [exact R|]. intros f r K.
  destruct (html_fun _ _ _ R _ _ K) as [<- <-]. auto.
Qed.
Print Assumptions C65_render.
Example C65_case :
  let t := Node Document None [Node (Heading 2) (Some (B "A & <b> ")) [];
             Node Quote None [Node (Link (Some (B "x""y")) (Some (B "<t>"))) None [Node Text (Some (B "</a>")) []]]] in
  proper t /\
  render (Breaks false false) t =
    B "<h2>A &amp; &lt;b&gt;</h2>" ++ [NL] ++ B "<blockquote>" ++ [NL] ++
    B "<a href=""x&quot;y"" title=""&lt;t&gt;"">&lt;/a&gt;</a></blockquote>" ++ [NL].
Proof.
  cbv zeta. split; [|vm_compute; reflexivity].
  repeat (constructor; [try exact I; try lia|]). all: repeat (constructor; try exact I; try lia).
Qed.

(** ** C66 *)
(** The minimal parser turns a document of headings, closed code fences and
    paragraphs into exactly these, in order. *)
Theorem C66_parse_partial l g :
  newlines g -> parts_ok l g -> parse (write_parts l g) = Some (Node Document None (map part_node (map snd l))).
Proof. exact (parse_parts l g). Qed.
Print Assumptions C66_parse_partial.
(** Every text is such a document, except that the last part may be a code fence
    that is never closed. *)
Theorem C66_every_text s : exists l g u,
  newlines g /\ (u = [] \/ unclosed u) /\ parts_ok l (g ++ u) /\ s = write_parts l (g ++ u).
Proof. exact (every_document (length s) s (le_n _)). Qed.
Print Assumptions C66_every_text.
(** It always comes to an end. *)
Theorem C66_total s : exists n, parse s = Some n.
Proof.
  unfold parse. destruct (parse_total (S (length s)) s) as (l & ->); [lia|]. eexists. reflexivity.
Qed.
Print Assumptions C66_total.
(** An unclosed fence: all but the last two bytes of the code are lost. *)
Theorem C66_unclosed_refuted :
  ~ (forall s n, parse s = Some n ->
      forall c, In c s -> isalnum c = true -> In c (render (Breaks false false) n)).
Proof.
  intros H. specialize (H (B "```" ++ [NL] ++ B "abcd") (Node Document None [Node Paragraph (Some (B "cd")) []]) eq_refl "a"%char).
  assert (K : In "a"%char (B "<p>cd</p>" ++ [NL])); [apply H; [cbn; auto 10|reflexivity]|]. cbn in K. intuition discriminate.
Qed.
Print Assumptions C66_unclosed_refuted.
Example C66_case :
  let l := [([NL], PHead 2 (B "Title")); ([NL], PPara (B "some #text" ++ [NL] ++ B "more")); ([NL; NL], PFence (B "c") (B "x`y" ++ [NL]) [])] in
  parts_ok l [NL] /\
  parse (write_parts l [NL]) = Some (Node Document None [Node (Heading 2) (Some (B "Title")) []; Node Paragraph (Some (B "some #text" ++ [NL] ++ B "more")) [];
     Node (CodeBlock (Some (B "c"))) (Some (B "x`y" ++ [NL])) []]).
Proof.
  cbv zeta. split; [|vm_compute; reflexivity]. cbn [parts_ok part_ok].
  split; [repeat constructor; auto|]. split; [split; [lia|]; split; [intros K; cbn in K; intuition discriminate|right; eexists; reflexivity]|].
  split; [repeat constructor; auto|]. split.
  - split; [eexists _, _; split; [reflexivity|]; split; discriminate|]. split.
    { intros n q L E. destruct n; [lia|discriminate]. }
    split; [intros q E; discriminate|]. split.
    { exact (strstr_none [NL; NL] (B "some #text" ++ [NL] ++ B "more") eq_refl). }
    right. split; [eexists; reflexivity|]. intros a E. apply (f_equal (fun l => last l NUL)) in E. rewrite last_last in E. discriminate.
  - split; [repeat constructor; auto|]. split; [|exact I]. split; [intros K; cbn in K; intuition discriminate|].
    split; [intros []|]. split; [|right; exists []; reflexivity].
    intros a b E. do 4 (destruct a as [|? a]; [discriminate|injection E as _ E; cbn [app] in E]).
    destruct a; [injection E as <-; reflexivity|]. apply (f_equal (@length _)) in E. cbn in E. rewrite !app_length in E. cbn in E. lia.
Qed.
