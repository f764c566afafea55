(** Properties of inline footnotes (C31, C92, C93). *)
From Verif Require Import Base BaseL Dec M_Notes S_Notes L_Notes.

(** * C31: every note becomes a reference and one definition

    Full: [forall l, clear_all l -> exists w, inline_notes (text l) = Some w /\ w_out w = result l
    /\ w_oob w = false].  The block has three bytes for every byte of the text, which is too
    little for short notes: *)
Definition C31_full : Prop :=
  forall l, clear_all l -> exists w, inline_notes (text l) = Some w /\ w_out w = result l.
(** From [^[a]] the head of the definition is lost. *)
Theorem C31_refuted : ~ C31_full.
Proof.
  intro H. destruct (H [Caret (B "a")]) as (w & E & O).
  - repeat constructor; discriminate.
  - vm_compute in E. injection E as <-. vm_compute in O. discriminate.
Qed.
Print Assumptions C31_refuted.
(** And the terminator is stored outside the block: for an empty text and for [^[]]. *)
Theorem C31_memory_refuted :
  ~ (forall s w, inline_notes s = Some w -> w_oob w = false) /\
  exists l w, clear_all l /\ notes l <> [] /\ inline_notes (text l) = Some w /\ w_oob w = true.
Proof.
  split.
  - intro H. specialize (H [] (Wr 0 [] 0 true) eq_refl). discriminate.
  - exists [Caret []], (Wr 9 (B "[^fn1]" ++ [NL; NL; NL]) 0 true). repeat split; [constructor|discriminate].
Qed.
Print Assumptions C31_memory_refuted.
(** The result is as it should be exactly when it is short enough. *)
Theorem C31_partial l : clear_all l ->
  exists w, inline_notes (text l) = Some w /\ (w_out w = result l /\ w_oob w = false <-> length (result l) < 3 * length (text l)).
Proof. exact (inline_notes_exact l). Qed.
Print Assumptions C31_partial.
(** For any text it ends, and only the terminator can be stored outside. *)
Theorem C31_memory_partial s :
  exists w, inline_notes s = Some w /\ length (w_out w) <= 3 * length s /\ (w_oob w = true <-> length (w_out w) = 3 * length s).
Proof. exact (inline_notes_total s). Qed.
Print Assumptions C31_memory_partial.
(** Every text without code is covered. *)
Theorem C31_covers_partial s : ~ In "`"%char s -> (forall a b, s <> a ++ B "~~~" ++ b) -> exists l, text l = s /\ clear_all l.
Proof. exact (plain_parts (length s) s (le_n _)). Qed.
Print Assumptions C31_covers_partial.
Lemma byte_clear c s : c <> "`"%char -> c <> "~"%char -> c <> "^"%char -> c <> "["%char -> clear (Byte c) s.
Proof.
  intros N1 N2 N3 N4. split; [exact N1|]. split; [intros (r & [H|H]); injection H as H _; congruence|].
  split; intros a r H; injection H as H _; congruence.
Qed.
Lemma cut x t n : forallb (fun k => negb (fence (skipn k (x ++ t)))) (seq 0 n) = true ->
  forall a b, x ++ t = a ++ b -> length a < n -> ~ opens_fence b.
Proof.
  intros H a b E La Q. rewrite forallb_forall in H. specialize (H (length a) ltac:(apply in_seq; lia)). rewrite E, skipn_app, skipn_all, Nat.sub_diag in H.
  cbn [app skipn] in H. apply fence_spec in Q. rewrite Q in H. discriminate.
Qed.
Lemma code_clear : forall s, ~ begins "`"%char s -> clear (Span (B "^[a b]")) s.
Proof.
  intros s N. split; [cbn; intuition discriminate|]. split; [exact N|]. intros a b E. apply (cut (B "^[a b]") (B "`") 8 eq_refl a b E).
  apply (f_equal (@length ascii)) in E. rewrite !app_length in E. cbn in E. lia.
Qed.
Example C31_case :
  let l := [Byte "x"; Caret (B "see [1] and more"); Byte " "; Span (B "^[a b]"); Brackets (B "second note"); Byte NL;
            Fenced "~" (NL :: B "[^c d]" ++ [NL])] in
  clear_all l /\ length (result l) < 3 * length (text l) /\
  result l = B "x[^fn1] `^[a b]`[^fn2]" ++ [NL] ++ B "~~~" ++ [NL] ++ B "[^c d]" ++ [NL] ++ B "~~~" ++ [NL; NL]
             ++ B "[^fn1]: see [1] and more" ++ [NL] ++ B "[^fn2]: second note" ++ [NL].
Proof.
  assert (Bal : balanced (B "see [1] and more")).
  { do 4 (apply b_byte; [discriminate|discriminate|]). apply (b_pair (B "1") (B " and more")); repeat (constructor; try discriminate). }
  split; [|split; [apply Nat.ltb_lt; vm_compute; reflexivity|reflexivity]].
  split; [apply byte_clear; discriminate|]. split; [exact Bal|]. split; [apply byte_clear; discriminate|].
  split; [apply code_clear; intros (r & H); discriminate H|].
  split. { split; [cbn; intuition discriminate|]. split; [cbn; intuition discriminate|]. exists " "%char. split; [cbn; tauto|reflexivity]. }
  split; [apply byte_clear; discriminate|]. split; [|exact I].
  split; [now right|]. split; [intros (r & H); discriminate H|]. split; [intros (r & H); discriminate H|].
  exact (cut (NL :: B "[^c d]" ++ [NL]) (three "~") 8 eq_refl).
Qed.
Example C31_cut_case : exists w, inline_notes (B "^[a]") = Some w /\ w_out w = B "[^fn1]" ++ [NL; NL] ++ B "a" ++ [NL].
Proof. eexists. split; vm_compute; reflexivity. Qed.

(** * C92: a number has one definition

    The numbers are those of the list of notes and no other definition begins with them.
    False when the document has such a label itself, and when a note at the start of a line is
    followed by a colon: the reference made of it then is a definition. *)
Definition C92_full : Prop := forall l n, clear_all l -> count (defines n) (result l) <= 1.
Lemma all_bytes s : forallb (fun c => negb (ceq c "`") && negb (ceq c "~") && negb (ceq c "^") && negb (ceq c "["))%bool s = true ->
  forall l, clear_all l -> clear_all (map Byte s ++ l).
Proof.
  intros H l C. induction s as [|c s IH]; [exact C|]. cbn [forallb map app] in *. apply Bool.andb_true_iff in H. destruct H as [Hc H].
  apply Bool.andb_true_iff in Hc. destruct Hc as [Hc H4]. apply Bool.andb_true_iff in Hc. destruct Hc as [Hc H3]. apply Bool.andb_true_iff in Hc. destruct Hc as [H1 H2].
  split; [|now apply IH]. apply Bool.negb_true_iff in H1, H2, H3, H4. apply byte_clear; now apply ceq_neq.
Qed.
Theorem C92_refuted : ~ C92_full.
Proof.
  intro H. specialize (H (Caret (B "a first note") :: map Byte (B ": tail")) 1).
  assert (C : clear_all (Caret (B "a first note") :: map Byte (B ": tail"))).
  { split; [repeat (constructor; try discriminate)|]. rewrite <- (app_nil_r (map Byte (B ": tail"))). apply all_bytes; [reflexivity|exact I]. }
  specialize (H C). vm_compute in H. lia.
Qed.
Print Assumptions C92_refuted.
(** A definition the document has itself. *)
Theorem C92_own_refuted : ~ (forall l n, clear_all l -> no_colon l -> count (defines n) (result l) <= 1).
Proof.
  intro H. specialize (H (map Byte (B "[^fn1]: mine" ++ [NL]) ++ [Caret (B "a first note")]) 1).
  assert (C : clear_all (map Byte (B "[^fn1]: mine" ++ [NL]) ++ [Caret (B "a first note")])).
  { change (map Byte (B "[^fn1]: mine" ++ [NL]) ++ [Caret (B "a first note")]) with (Byte "[" :: Byte "^" :: map Byte (B "fn1]: mine" ++ [NL]) ++ [Caret (B "a first note")]).
    split; [|split; [|apply all_bytes; [reflexivity|split; [repeat (constructor; try discriminate)|exact I]]]].
    - split; [discriminate|]. split; [intros (r & [Q|Q]); discriminate Q|]. split; [intros a r Q; discriminate Q|].
      intros a r Q (N1 & _ & c & I1 & I2). injection Q as Q. destruct a as [|c1 [|c2 [|c3 [|c4 a]]]].
      + discriminate Q.
      + discriminate Q.
      + discriminate Q.
      + injection Q as <- <- <- _. cbn in I1. destruct I1 as [<-|[<-|[<-|[]]]]; discriminate.
      + injection Q as _ _ _ <- _. apply N1. cbn. tauto.
    - split; [discriminate|]. split; [intros (r & [Q|Q]); discriminate Q|]. split; intros a r Q; discriminate Q. }
  specialize (H C). vm_compute in H.
  assert (K : 2 <= 1) by (apply H; split; [intros (r & Q); discriminate Q|exact I]). lia.
Qed.
Print Assumptions C92_own_refuted.
(** Without those two: the definitions are those of the notes, one for each number. *)
Theorem C92_partial l n : no_colon l -> count (starts (B "[^fn")) (text l) = 0 ->
  count (defines n) (result l) = if (Nat.leb 1 n && Nat.leb n (length (notes l)))%bool then 1 else 0.
Proof. exact (result_count n l). Qed.
Print Assumptions C92_partial.
Example C92_case :
  let l := [Byte "x"; Caret (B "see [^f] and more"); Byte " "; Brackets (B "second note")] in
  no_colon l /\ count (starts (B "[^fn")) (text l) = 0 /\ count (defines 2) (result l) = 1 /\ count (defines 3) (result l) = 0.
Proof. repeat split; intros (r & H); discriminate H. Qed.

(** * C93: code and text without notes are left alone *)
Theorem C93_partial l : clear_all l -> notes l = [] -> text l <> [] ->
  exists w, inline_notes (text l) = Some w /\ w_out w = text l /\ w_oob w = false.
Proof.
  intros C N T. destruct (inline_notes_exact l C) as (w & E & _ & H). exists w. split; [exact E|]. rewrite (no_notes l N) in H. apply H.
  destruct (text l); [congruence|cbn [length]; lia].
Qed.
Print Assumptions C93_partial.
(** Code behind four back quotes is changed. *)
Theorem C93_refuted :
  ~ (forall x w, ~ In "`"%char x -> inline_notes (B "````" ++ [NL] ++ x ++ [NL] ++ B "````") = Some w -> w_out w = B "````" ++ [NL] ++ x ++ [NL] ++ B "````").
Proof.
  intro H. destruct (C31_memory_partial (B "````" ++ [NL] ++ B "a = b ^[c d e]" ++ [NL] ++ B "````")) as (w & E & _).
  pose proof (H (B "a = b ^[c d e]") w) as K. rewrite E in K. specialize (K ltac:(cbn; intuition discriminate) eq_refl).
  vm_compute in E. injection E as <-. vm_compute in K. discriminate.
Qed.
Print Assumptions C93_refuted.
(** After a back quote without a partner notes are not seen. *)
Theorem C93_unpaired_refuted :
  ~ (forall x a w, ~ In "`"%char x -> in_line a -> ~ In "`"%char a -> inline_notes (B "`" ++ x ++ B "[^" ++ a ++ B "]") = Some w ->
     starts (B "`" ++ x ++ B "[^fn") (w_out w) = true).
Proof.
  intro H. destruct (C31_memory_partial (B "`" ++ B "tis so" ++ B "[^" ++ B "or so they say" ++ B "]")) as (w & E & _).
  pose proof (H (B "tis so") (B "or so they say") w) as K.
  specialize (K ltac:(cbn; intuition discriminate)).
  specialize (K ltac:(split; [cbn; intuition discriminate|split; [cbn; intuition discriminate|exists " "%char; split; [cbn; tauto|reflexivity]]])).
  specialize (K ltac:(cbn; intuition discriminate) E). vm_compute in E. injection E as <-. vm_compute in K. discriminate.
Qed.
Print Assumptions C93_unpaired_refuted.
Example C93_case : exists l, text l = B "`^[a b]` x^2 [1]" /\ clear_all l /\ notes l = [].
Proof.
  exists [Span (B "^[a b]"); Byte " "; Byte "x"; Byte "^"; Byte "2"; Byte " "; Byte "["; Byte "1"; Byte "]"].
  split; [reflexivity|]. split; [|reflexivity]. split; [apply code_clear; intros (r & H); discriminate H|].
  repeat (split; [first [apply byte_clear; discriminate|split; [discriminate|split; [intros (r & [Q|Q]); discriminate Q|split; intros a r Q; discriminate Q]]]|]).
  exact I.
Qed.
