(** Insertions: C97, C98. *)
From Verif Require Import Base BaseL M_Ins S_Ins L_Ins.

(** C97.  In full: every insertion, and nothing else, becomes an ins element, and no byte is
    written outside the block.  [forall ial s, NUL is not in s -> exists l w, inserts ial s = Some w /\
    text l = s /\ clear ial None l /\ complete None l /\ w_out w = render l /\ w_oob w = false.]
    Refuted: the block has twice the size of the text, and <ins></ins> is longer than ++++. *)
Theorem C97_refuted :
  (exists w, inserts (fun _ => None) (B "++a++") = Some w /\ w_out w = B "<ins>a" /\
     text [Ins (B "a")] = B "++a++" /\ clear (fun _ => None) None [Ins (B "a")] /\ render [Ins (B "a")] = B "<ins>a</ins>") /\
  (exists w, inserts (fun _ => None) (B "++a++ ++b++ cd") = Some w /\ w_out w = B "<ins>a</ins> <ins>b</ins> cd" /\ w_oob w = true) /\
  (exists w, inserts (fun _ => None) (B "don`t ++a++") = Some w /\ w_out w = B "don`t ++a++").
Proof.
  split; [|split; eexists; (split; [vm_compute; reflexivity|]); vm_compute; auto]. eexists. split; [vm_compute; reflexivity|]. split; [vm_compute; reflexivity|]. split; [reflexivity|]. split; [|reflexivity].
  split; [|exact I]. split; [|split].
  - split; [discriminate|]. split; [cbn; intuition discriminate|]. split; [cbn; intuition discriminate|]. split; [intros c (r & E); injection E as <- _; cbn; intuition discriminate|].
    split; [cbn; intuition discriminate|]. split; [intros (r & E); discriminate|]. split; discriminate.
  - intros y q E (Ny & _). destruct y; [congruence|cbn; lia].
  - reflexivity.
Qed.
Print Assumptions C97_refuted.
(** The decomposition always exists; it is written when it is shorter than the block, and, when
    no insertion has attributes (with them the block may have been enlarged), only then; without
    backquotes no insertion is overlooked. *)
Theorem C97_partial : forall ial s, exists l w, inserts ial s = Some w /\ text l = s /\ clear ial None l /\
  (length (render l) < 2 * length s -> w_out w = render l /\ w_oob w = false) /\
  (no_attributes l -> w_out w = render l /\ w_oob w = false -> length (render l) < 2 * length s) /\
  (~ In "`"%char s -> complete None l).
Proof. exact inserts_ok. Qed.
Print Assumptions C97_partial.
Example C97_case : exists w, inserts (fun a => if seq_ a (B ".x") then Some (B " class=x") else None) (B "one ++two words++ {.x} and ++three++") = Some w /\
  w_out w = B "one <ins markdown=" ++ [DQ] ++ B "span" ++ [DQ] ++ B " class=x>two words</ins> and <ins>three</ins>" /\ w_oob w = false.
Proof. eexists. split; [vm_compute; reflexivity|]. vm_compute. auto. Qed.

(** C98.  In full: a code span is kept.  [forall ial u x v, there is no backquote in u, x and v, x
    is not empty, inserts ial (u ++ B "`" ++ x ++ B "`" ++ v) = Some w -> exists a b, w_out w =
    a ++ B "`" ++ x ++ B "`" ++ b.]  Refuted: an insertion that opens before the code closes in it. *)
Theorem C98_refuted : exists u x v : str, exists w : wr, ~ In "`"%char (u ++ x ++ v) /\ x <> [] /\
  inserts (fun _ => None) (u ++ B "`" ++ x ++ B "`" ++ v) = Some w /\ w_oob w = false /\
  ~ (exists a b, w_out w = a ++ B "`" ++ x ++ B "`" ++ b).
Proof.
  exists (B "see a ++b "), (B "i++"), (B " c"). eexists. split; [cbn; intuition discriminate|]. split; [discriminate|]. split; [vm_compute; reflexivity|]. split; [vm_compute; reflexivity|].
  intros (a & b & E). revert E. cbn [w_out]. match goal with |- ?o = _ -> _ => set (t := o) end. intro E.
  assert (H : strstr (B "`i++`") t = None) by reflexivity. apply (strstr_none _ _ H a b). rewrite E. reflexivity.
Qed.
Print Assumptions C98_refuted.
(** With no two plus signs before the code, it is kept, and the insertions behind it are found. *)
Theorem C98_partial : forall ial u x v, ~ In "`"%char (u ++ x ++ v) -> (forall a b, u <> a ++ B "++" ++ b) -> x <> [] ->
  exists l w, inserts ial (u ++ B "`" ++ x ++ B "`" ++ v) = Some w /\ text l = v /\ clear ial (Some "`"%char) l /\ complete (Some "`"%char) l /\
  (length (render l) + length u + length x + 2 < 2 * length (u ++ B "`" ++ x ++ B "`" ++ v) -> w_out w = u ++ B "`" ++ x ++ B "`" ++ render l /\ w_oob w = false).
Proof. exact code_kept. Qed.
Print Assumptions C98_partial.
Example C98_case : exists w, inserts (fun _ => None) (B "in C `++i; j++` is ++not++ text") = Some w /\ w_out w = B "in C `++i; j++` is <ins>not</ins> text".
Proof. eexists. split; vm_compute; reflexivity. Qed.
