(** C29, C80, C81: pretty printing. *)
From Verif Require Import Base BaseL M_Pretty S_Pretty L_Pretty L_Pretty2.

(** ** C29 *)
(** The full claim: only white space is changed. *)
Definition C29_full : Prop := forall html, exists out oob, pretty html = Some (out, oob) /\ solid out = solid html.
(** It fails: a tag that does not fit into the buffer is dropped.  Thirteen open
    elements and a link of 104 bytes are enough. *)
Definition C29_witness : str :=
  concat (repeat (B "<div>") 13) ++ B "<a " ++ repeat "x"%char 100 ++ B ">".
Theorem C29_refuted : ~ C29_full.
Proof.
  intro H. destruct (H C29_witness) as (out & oob & E & S0). vm_compute in E. injection E as <- <-. vm_compute in S0. discriminate.
Qed.
Print Assumptions C29_refuted.
(** What holds for every html: it is cut into tags and single bytes, some of which may
    be lost; nothing else is changed except white space.  No tag is cut in two,
    doubled or moved. *)
Theorem C29_pieces html : exists out oob l x,
  pretty html = Some (out, oob) /\ cut html l /\ lossy l x /\ solid out = solid x.
Proof. exact (pretty_ok html). Qed.
Print Assumptions C29_pieces.
(** Nothing is lost if every tag is short for its depth. *)
Theorem C29_partial html l : html <> [] -> cut html l -> moderate l ->
  exists out, pretty html = Some (out, false) /\ solid out = solid html.
Proof. exact (pretty_fits html l). Qed.
Print Assumptions C29_partial.
(** There is one way to cut an html. *)
Theorem C29_one_cut html : exists l, cut html l /\ forall l', cut html l' -> l' = l.
Proof.
  destruct (cut_exists html) as (l & C). exists l. split; [assumption|]. intros l' C'. exact (cut_fun _ _ C' _ C).
Qed.
Print Assumptions C29_one_cut.
Theorem C29_short_partial html : html <> [] -> length html <= 48 ->
  exists out, pretty html = Some (out, false) /\ solid out = solid html.
Proof.
  intros N L. destruct (cut_exists html) as (l & C). exact (pretty_fits html l N C (short_moderate _ _ L C)).
Qed.
Print Assumptions C29_short_partial.
Example C29_case :
  pretty (B "<ul><li>a <em>b</em></li></ul>") =
  Some (B "<ul>" ++ [NL] ++ B "  <li>" ++ [NL] ++ B "    a <em>b</em>" ++ [NL] ++ B "  </li>" ++ [NL] ++ B "</ul>" ++ [NL], false).
Proof. vm_compute. reflexivity. Qed.

(** ** C80 *)
(** The full claim: nothing is stored outside the buffer. *)
Definition C80_full : Prop := forall html, exists out, pretty html = Some (out, false).
(** It fails for the empty html: the buffer has no byte, and a terminator is stored.  It
    also fails when the indentation fills the buffer. *)
Definition C80_deep : str := repeat "x"%char 30 ++ concat (repeat (B "<p>") 52) ++ B "y".
Theorem C80_refuted : ~ C80_full.
Proof. intro H. destruct (H []) as (out & E). vm_compute in E. discriminate. Qed.
Print Assumptions C80_refuted.
Theorem C80_deep_refuted : ~ (forall html, html <> [] -> exists out, pretty html = Some (out, false)).
Proof.
  intro H. destruct (H C80_deep) as (out & E); [discriminate|].
  assert (X : option_map snd (pretty C80_deep) = Some true) by (vm_compute; reflexivity).
  rewrite E in X. discriminate.
Qed.
Print Assumptions C80_deep_refuted.
Theorem C80_partial html l : html <> [] -> cut html l -> moderate l -> exists out, pretty html = Some (out, false).
Proof. intros N C M. destruct (pretty_fits html l N C M) as (out & E & _). eauto. Qed.
Print Assumptions C80_partial.

(** ** C81 *)
(** The full claim: the text in [pre] and [code] is kept, byte by byte. *)
Definition C81_full : Prop := forall html a t x b d,
  cut html (a ++ Tag t :: map Byte x ++ b) -> moderate (a ++ Tag t :: map Byte x ++ b) -> lies (a ++ [Tag t]) d true ->
  exists out oob y z, pretty html = Some (out, oob) /\ out = y ++ x ++ z.
Definition C81_text : str := B "a" ++ [NL; NL; NL] ++ B "b".
Lemma bytes_cut x r l : ~ In "<"%char x -> cut r l -> cut (x ++ r) (map Byte x ++ l).
Proof. intro H. apply cut_bytes. intros c I ->. contradiction. Qed.
Definition named_pre : named (B "<pre>") false (B "pre").
Proof.
  apply (n_open (B "pre") (B ">")).
  - repeat constructor; discriminate.
  - discriminate.
  - intros c r E. injection E as <- _. intros (_ & N & _). congruence.
Defined.
Lemma pre_cut x : ~ In "<"%char x -> cut (B "<pre>" ++ x) ([] ++ Tag (B "<pre>") :: map Byte x ++ []).
Proof.
  intro H. apply (c_tag (B "<pre") x).
  - intros [I|[I|[I|[I|[]]]]]; discriminate.
  - exists [], "p"%char, (B "re>"). split; [reflexivity|]. split; [now left|]. repeat split; discriminate.
  - rewrite <- (app_nil_r x) at 1. apply bytes_cut; [assumption|constructor].
Qed.
(** It fails: two empty lines become one. *)
Theorem C81_refuted : ~ C81_full.
Proof.
  intro H. assert (C : cut (B "<pre>" ++ C81_text) ([] ++ Tag (B "<pre>") :: map Byte C81_text ++ [])).
  { apply pre_cut. vm_compute. intros [I|[I|[I|[I|[I|[]]]]]]; discriminate. }
  destruct (H _ [] _ _ [] 0 C) as (out & oob & y & z & E & X).
  - refine (short_moderate _ _ _ C). cbn. lia.
  - apply (y_code [] 0 false _ (B "pre")); [constructor|exact named_pre|now left].
  - vm_compute in E. injection E as <- <-.
    assert (N : strstr C81_text (B "<pre>a" ++ [NL; NL] ++ B "b") = None) by reflexivity.
    pose proof (strstr_none _ _ N y z) as K. apply K. exact X.
Qed.
Print Assumptions C81_refuted.
(** Nor is an element with code kept as a whole: a line may be added before its end. *)
Theorem C81_end_refuted : ~ (forall x, length x < 30 -> ~ In "<"%char x ->
  exists out oob y z, pretty (B "<pre>" ++ x ++ B "</pre>") = Some (out, oob) /\ out = y ++ B "<pre>" ++ x ++ B "</pre>" ++ z).
Proof.
  intro H. destruct (H (B "x")) as (out & oob & y & z & E & X).
  - cbn. lia.
  - intros [I|[]]. discriminate.
  - vm_compute in E. injection E as <- <-.
    assert (N : strstr (B "<pre>x</pre>") (B "<pre>x" ++ [NL] ++ B "</pre>" ++ [NL]) = None) by reflexivity.
    apply (strstr_none _ _ N y z). exact X.
Qed.
Print Assumptions C81_end_refuted.
(** What holds: text without two empty lines in a row is kept, directly behind the tag. *)
Theorem C81_partial html a t x b d : cut html (a ++ Tag t :: map Byte x ++ b) ->
  moderate (a ++ Tag t :: map Byte x ++ b) -> lies (a ++ [Tag t]) d true ->
  (forall u v, x <> u ++ [NL; NL; NL] ++ v) ->
  exists out y z, pretty html = Some (out, false) /\ out = y ++ x ++ z /\ (x <> [] -> exists y', y = y' ++ [">"%char]).
Proof. exact (code_kept html a t x b d). Qed.
Print Assumptions C81_partial.
Example C81_case :
  pretty (B "<p><pre><code>a  b" ++ [NL] ++ B "  c" ++ [NL] ++ B "</code></pre></p>") =
  Some (B "<p>" ++ [NL] ++ B "<pre><code>a  b" ++ [NL] ++ B "  c" ++ [NL] ++ B "</code></pre>" ++ [NL] ++ B "</p>" ++ [NL], false).
Proof. vm_compute. reflexivity. Qed.
