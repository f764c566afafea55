(** Properties C214-C218: hashtags (src/apex.c 4554-4726). *)
From Verif Require Import Base BaseL M_Pass M_Hash S_Hash L_Hash.

(** * C214: what becomes a hashtag, for every text *)
Theorem C214_hashed styled text : exists h, Hashed (open_tag styled) text h /\ hashtags styled text = Out h.
Proof. destruct (hashed_total (open_tag styled) text) as [h H]. exists h. split; [exact H|exact (hashtags_spec styled text h H)]. Qed.
Print Assumptions C214_hashed.
Theorem C214_unique styled text h h' : Hashed (open_tag styled) text h -> Hashed (open_tag styled) text h' -> h = h'.
Proof. intros H H'. pose proof (hashtags_spec _ _ _ H) as E. rewrite (hashtags_spec _ _ _ H') in E. congruence. Qed.
Print Assumptions C214_unique.
Example C214_case : hashtags false (B "#a/b, x #c d# (#e) ##f # g" ++ [NL] ++ B "#h") =
  Out (B "<span class=""mkhashtag"">#a/b</span>, x <span class=""mkhashtag"">#c</span> d# (#e) ##f # g" ++ [NL] ++ B "<span class=""mkhashtag"">#h</span>").
Proof. vm_compute. reflexivity. Qed.

(** * C215: code is left alone *)
Theorem C215_refuted : hashtags false (B "```" ++ [NL] ++ B "#include" ++ [NL] ++ B "```") = Out (B "```" ++ [NL] ++ B "<span class=""mkhashtag"">#include</span>" ++ [NL] ++ B "```") /\
  hashtags false (B "`a #b`") = Out (B "`a <span class=""mkhashtag"">#b`</span>").
Proof. split; vm_compute; reflexivity. Qed.
Print Assumptions C215_refuted.
(** A line indented by four spaces or a tab stays, wherever it is. *)
Theorem C215_partial styled p l s : ~ In NL l -> code_line l -> exists hp hs, Hashed (open_tag styled) p hp /\ Hashed (open_tag styled) s hs /\ hashtags styled (p ++ [NL] ++ l ++ [NL] ++ s) = Out (hp ++ [NL] ++ l ++ [NL] ++ hs).
Proof.
  intros N C. destruct (hashed_total (open_tag styled) p) as [hp Hp]. destruct (hashed_total (open_tag styled) s) as [hs Hs]. exists hp, hs. split; [exact Hp|]. split; [exact Hs|].
  apply hashtags_spec, hashed_app; [exact Hp|]. apply hashed_app; [apply hashed_code; assumption|exact Hs].
Qed.
Print Assumptions C215_partial.
Example C215_case : code_line (B "    x #y") /\ hashtags true (B "a" ++ [NL] ++ B "    x #y" ++ [NL] ++ B "b #c") = Out (B "a" ++ [NL] ++ B "    x #y" ++ [NL] ++ B "b <span class=""mkstyledtag"">#c</span>").
Proof. split; [|vm_compute; reflexivity]. exists (B "    "), (B "x #y"). split; [reflexivity|]. split; [repeat constructor|right; vm_compute; lia]. Qed.

(** * C216: a hashtag is found in every line that is no code, and every hashtag by itself *)
Theorem C216_refuted : hashtags false (B "- a" ++ [NL] ++ B "    - b #c") = Out (B "- a" ++ [NL] ++ B "    - b #c") /\
  hashtags false (B "#a" ++ [TAB] ++ B "#b") = Out (B "<span class=""mkhashtag"">#a" ++ [TAB] ++ B "#</span>b").
Proof. split; vm_compute; reflexivity. Qed.
Print Assumptions C216_refuted.

(** * C217: the span is well nested *)
Theorem C217_refuted : hashtags false (B "<b>x #a</b>") = Out (B "<b>x <span class=""mkhashtag"">#a</b></span>").
Proof. vm_compute. reflexivity. Qed.
Print Assumptions C217_refuted.

(** * C218: a text without # does not change *)
Theorem C218_plain styled text : ~ In "#"%char text -> hashtags styled text = Out text.
Proof. intros N. apply hashtags_spec, hashed_plain, N. Qed.
Print Assumptions C218_plain.
Example C218_case : hashtags true (B "a b" ++ [NL] ++ B "c") = Out (B "a b" ++ [NL] ++ B "c") /\ ~ In "#"%char (B "a b" ++ [NL] ++ B "c").
Proof. split; [vm_compute; reflexivity|cbn; intuition discriminate]. Qed.
