(** Properties C219-C222: non-breaking spaces in headings (src/apex.c 3538-3956). *)
From Verif Require Import Base BaseL M_Pass S_Pass M_Widont S_Widont L_Widont.

(** * C219: exactly what changes, and the buffer is large enough *)
Theorem C219_refuted : exists html h, Widont html h /\ apply_widont html = Bad.
Proof. destruct (widont_total (B "<h1>a    b</h1>xxxx")) as [h H]. exists (B "<h1>a    b</h1>xxxx"), h. split; [exact H|vm_compute; reflexivity]. Qed.
Print Assumptions C219_refuted.
Theorem C219_exact html : exists h, Widont html h /\ (apply_widont html = Out h \/ apply_widont html = Bad).
Proof. destruct (widont_total html) as [h H]. exists h. split; [exact H|exact (widont_out html h H)]. Qed.
Print Assumptions C219_exact.
Theorem C219_unique html h h' : Widont html h -> Widont html h' -> h = h'.
Proof. exact (widont_unique html h h'). Qed.
Print Assumptions C219_unique.
(** The result has at most twice the length of the HTML. *)
Theorem C219_partial html h : Widont html h -> length h <= 2 * length html -> apply_widont html = Out h.
Proof. exact (widont_safe html h). Qed.
Print Assumptions C219_partial.
Example C219_case : apply_widont (B "<p>a b c</p><h2 id=""x"">Read <b>this</b> text now</h2>") = Out (B "<p>a b c</p><h2 id=""x"">Read <b>this</b>&nbsp;text&nbsp;now</h2>").
Proof. vm_compute. reflexivity. Qed.

(** * C220: the last line of a heading is not short *)
Theorem C220_refuted : apply_widont (B "<h1>Read <em>this</em> text now a b c</h1>") = Out (B "<h1>Read <em>this</em> text now a&nbsp;b&nbsp;c</h1>") /\
  apply_widont (B "<h1>Read some text" ++ [NL] ++ B "now</h1>") = Out (B "<h1>Read some&nbsp;text" ++ [NL] ++ B "now</h1>").
Proof. split; vm_compute; reflexivity. Qed.
Print Assumptions C220_refuted.
(** Without tags: from more than ten bytes before the end on, or from the start, no space is left. *)
Theorem C220_partial d a body s : heading_at d (a ++ B ">" ++ body ++ close d ++ s) -> ~ In ">"%char a -> ~ In "<"%char body -> ~ In ">"%char body -> ~ Forall white body ->
  exists p x m, body = p ++ x /\ text_end body m /\ (p = [] \/ 10 < m - length p) /\
    forall h, Widont s h -> Widont (a ++ B ">" ++ body ++ close d ++ s) (a ++ B ">" ++ (p ++ unbroken x) ++ close d ++ h).
Proof.
  intros H N N1 N2 F. destruct (plain_body body N1 N2 F) as (p & x & m & E & Te & P & Bd). exists p, x, m. split; [exact E|]. split; [exact Te|]. split; [exact P|].
  intros h W. exact (W_heading d a body s _ h H N (plain_close d body N1) Bd W).
Qed.
Print Assumptions C220_partial.
Example C220_case : heading_at "1"%char (B "<h1" ++ B ">" ++ B "Read this text now a b c" ++ close "1"%char ++ []) /\ ~ Forall white (B "Read this text now a b c") /\
  apply_widont (B "<h1>Read this text now a b c</h1>") = Out (B "<h1>Read this text&nbsp;now&nbsp;a&nbsp;b&nbsp;c</h1>").
Proof.
  split; [split; [left; reflexivity|eexists; reflexivity]|]. split; [|vm_compute; reflexivity]. intros F. inversion F as [|x y W _]. destruct W as [W|[W|[W|W]]]; discriminate.
Qed.

(** * C221: words are joined only when they have ten bytes together at most *)
Theorem C221_refuted : apply_widont (B "<h1>Introduction to Programming</h1>") = Out (B "<h1>Introduction to&nbsp;Programming</h1>") /\
  apply_widont (B "<h1>Internationalization Day</h1>") = Out (B "<h1>Internationalization&nbsp;Day</h1>").
Proof. split; vm_compute; reflexivity. Qed.
Print Assumptions C221_refuted.

(** * C222: HTML without headings does not change *)
Theorem C222_none html : no_heading html -> apply_widont html = Out html.
Proof. intros N. apply widont_safe; [apply widont_none, N|lia]. Qed.
Print Assumptions C222_none.
Example C222_case : no_heading (B "<p>a b <hr> c</p>") /\ apply_widont (B "<p>a b <hr> c</p>") = Out (B "<p>a b <hr> c</p>").
Proof.
  split; [|vm_compute; reflexivity]. intros a b d E (I & r & ->). cbn in I.
  repeat (destruct a as [|? a]; [first [discriminate E|injection E; intros; subst; intuition discriminate]|]; cbn [B list_ascii_of_string app] in E; first [discriminate E|injection E as _ E]).
Qed.
