(** Properties of superscripts, subscripts and underlines (C94-C96). *)
From Verif Require Import Base BaseL M_SupSub S_SupSub L_SupSub.

(** * C94: only marked words change, and the block is large enough

    Whatever the text, the result is the text with some marked words put into tags and with
    every other byte as it was; nothing is lost and nothing is stored outside the block. *)
Theorem C94 s : ~ In NUL s ->
  exists l w, sup_sub s = Some w /\ text l = s /\ w_out w = render l /\ w_oob w = false /\ Forall well l.
Proof. intro N. destruct (sup_sub_parts s N) as (l & w & H1 & H2 & H3 & H4 & H5 & _). now exists l, w. Qed.
Print Assumptions C94.
Example C94_case :
  let l := [Lit "H"; Sub (B "2") true; Lit "O"; Lit ","; Lit " "; Lit "m"; Sup (B "2") false; Lit "."; Under (B "a b")] in
  text l = B "H~2~O, m^2.~a b~" /\ Forall well l /\ option_map w_out (sup_sub (text l)) = Some (render l).
Proof.
  split; [reflexivity|]. split; [|reflexivity].
  repeat (apply Forall_cons; [first [exact I|split; [discriminate|split; [cbn; intuition discriminate|cbn; intuition discriminate]]|split; [discriminate|cbn; intuition (subst; discriminate)]]|]).
  constructor.
Qed.
(** A text without the marks is left alone. *)
Theorem C94_unmarked s : ~ In NUL s -> ~ In "^"%char s -> ~ In "~"%char s ->
  exists w, sup_sub s = Some w /\ w_out w = s /\ w_oob w = false.
Proof.
  intros N N1 N2. destruct (sup_sub_parts s N) as (l & w & H1 & <- & H3 & H4 & _ & _). exists w. split; [exact H1|]. split; [|exact H4].
  rewrite H3. now apply unmarked.
Qed.
Print Assumptions C94_unmarked.
Example C94_unmarked_case : ~ In NUL (B "a $b$ `c` {% d %}") /\ ~ In "^"%char (B "a $b$ `c` {% d %}") /\ ~ In "~"%char (B "a $b$ `c` {% d %}").
Proof. cbn. intuition discriminate. Qed.

(** * C95: marks are honoured

    Outside code, mathematics and Liquid tags no mark in front of a word is left in the text,
    except a caret behind a bracket and a tilde next to a tilde or in front of [>].
    Full: whatever else the text contains.  False: a dollar sign of a price turns marks off for
    the rest of the text, and so does a back quote without a partner. *)
Definition C95_full : Prop :=
  forall a b w, count_occ ascii_dec a "$"%char <= 1 -> (forall c, In c (a ++ b) -> ~ In c (NUL :: TAB :: NL :: B "~{`")) -> ~ In "$"%char b ->
    sup_sub (a ++ B " x^2 " ++ b) = Some w -> exists o, w_out w = o ++ B " x<sup>2</sup> " ++ b.
Theorem C95_refuted : ~ C95_full.
Proof.
  intro H. assert (K : exists o, B "costs $5 for x^2 now" = o ++ B " x<sup>2</sup> " ++ B "now").
  { apply (H (B "costs $5 for") (B "now") (Wr 100 (B "costs $5 for x^2 now") 80 false)).
    - vm_compute. constructor.
    - intros c I J. cbn in J. repeat (destruct J as [<-|J]; [cbn in I; intuition discriminate|]). destruct J.
    - cbn. intuition discriminate.
    - vm_compute. reflexivity. }
  destruct K as (o & K). apply (f_equal (@rev ascii)) in K. rewrite rev_app_distr in K. discriminate K.
Qed.
Print Assumptions C95_refuted.
Theorem C95_partial s : ~ In NUL s -> plain None s ->
  exists l w, sup_sub s = Some w /\ text l = s /\ w_out w = render l /\ Forall well l /\ complete None l.
Proof. intros N P. destruct (sup_sub_parts s N) as (l & w & H1 & H2 & H3 & _ & H5 & H6). exists l, w. repeat split; auto. Qed.
Print Assumptions C95_partial.
Example C95_case : plain None (B "E=mc^2, see [^1] and ~~x~~ {a}").
Proof.
  cbn [B list_ascii_of_string plain].
  repeat (split; [discriminate|split; [discriminate|split; [first [discriminate|intros _ (r & H); discriminate H]|split; [intros [H|H]; first [discriminate H|split; [discriminate|intros r Q; discriminate Q]]|]]]]).
  exact I.
Qed.

(** * C96: code, mathematics and Liquid tags are left alone

    Full: also code between tildes, and addresses.  Both false. *)
Theorem C96_refuted : ~ (forall x w, ~ In "~"%char x -> sup_sub (B "~~~" ++ [NL] ++ x ++ [NL] ++ B "~~~" ++ [NL]) = Some w -> w_out w = B "~~~" ++ [NL] ++ x ++ [NL] ++ B "~~~" ++ [NL]).
Proof.
  intro H. specialize (H (B "y = x^2")). vm_compute in H. specialize (H _ ltac:(intuition discriminate) eq_refl). discriminate.
Qed.
Print Assumptions C96_refuted.
Theorem C96_address_refuted : ~ (forall x w, ~ In SP x -> ~ In ">"%char x -> sup_sub (B "<http://" ++ x ++ B ">") = Some w -> w_out w = B "<http://" ++ x ++ B ">").
Proof.
  intro H. specialize (H (B "example/~user/")). vm_compute in H. specialize (H _ ltac:(intuition discriminate) ltac:(intuition discriminate) eq_refl). discriminate.
Qed.
Print Assumptions C96_address_refuted.
Theorem C96_partial a g b : ~ In NUL (a ++ region_text g ++ b) -> calm None a -> region_ok g ->
  exists w o, sup_sub (a ++ region_text g ++ b) = Some w /\ w_out w = a ++ region_text g ++ o.
Proof. exact (sup_sub_region a g b). Qed.
Print Assumptions C96_partial.
Example C96_case : calm None (B "Text: ") /\ region_ok (Code (B "x^2 ~b~")) /\ region_ok (Math (B "x^2")) /\ region_ok (Fenced (NL :: B "x^2")) /\
  region_ok (Display (B "x^2")) /\ region_ok (Liquid (B " x^2 % ")).
Proof.
  split; [|split; [|split; [|split; [|split]]]].
  - cbn [B list_ascii_of_string calm]. repeat (split; [cbn; intuition discriminate|split; [intros [H|H]; first [discriminate H|split; discriminate]|]]). exact I.
  - cbn. intuition discriminate.
  - split; [exists "x"%char, (B "^2"); repeat split; discriminate|]. cbn. intuition discriminate.
  - split; [discriminate|]. cbn. intuition discriminate.
  - cbn. intuition discriminate.
  - intros a b H. repeat (destruct a as [|? a]; [discriminate H|injection H as <- H]). destruct a; discriminate H.
Qed.
