(** C28, C78, C79: proofreader mode. *)
From Verif Require Import Base BaseL M_Reader S_Reader L_Reader.

(** ** C28 *)
(** No byte is ever stored outside the buffer, for any text.  (The counter never gets
    so low that the check that is two bytes too small matters.) *)
Theorem C28_safe text : exists w, proofread text = Some w /\ w_oob w = false.
Proof. destruct (proofread_total text) as (w & E & _ & B). eauto. Qed.
Print Assumptions C28_safe.
Example C28_case :
  option_map (fun w => (w_out w, w_cap w, w_rem w)) (proofread (B "========")) = Some (B "{====}{====}", 17, 5).
Proof. vm_compute. reflexivity. Qed.

(** ** C78 *)
(** The result is the one of the specification, and no other. *)
Theorem C78_exact text o :
  rewrites outside text o <-> exists w, proofread text = Some w /\ w_out w = o.
Proof.
  split.
  - intro H. destruct (proofread_rewrites text o H) as (w & E & O & _). eauto.
  - intros (w & E & <-). destruct (proofread_total text) as (w' & E' & H & _). congruence.
Qed.
Print Assumptions C78_exact.
Definition ticks (s : str) : nat := length (filter (fun c => ceq c tick) s).
(** The full claim: outside code, [==x==] becomes [{==x==}]; one backtick alone is no
    code. *)
Definition C78_full : Prop := forall a x b,
  ticks (a ++ x ++ b) <= 1 -> Forall (fun c => c <> "="%char /\ c <> "~"%char) (a ++ x ++ b) ->
  exists w, proofread (a ++ B "==" ++ x ++ B "==" ++ b) = Some w /\
    w_out w = a ++ B "{==" ++ x ++ B "==}" ++ b.
(** It fails: behind a single backtick nothing is marked any more. *)
Theorem C78_refuted : ~ C78_full.
Proof.
  intro H. destruct (H (B "it`s ") (B "x") []) as (w & E & O).
  - vm_compute. auto.
  - cbn. repeat (apply Forall_cons; [split; discriminate|]). apply Forall_nil.
  - vm_compute in E. injection E as <-. vm_compute in O. discriminate.
Qed.
Print Assumptions C78_refuted.
(** What holds: behind a text without backticks and marks; the rest is rewritten in
    the same way. *)
Theorem C78_partial d l r a x b : mark d l r ->
  Forall (fun c => c <> tick /\ c <> "="%char /\ c <> "~"%char) a -> ~ In d x ->
  exists w w', proofread (a ++ [d; d] ++ x ++ [d; d] ++ b) = Some w /\ proofread b = Some w' /\
    w_out w = a ++ l ++ x ++ r ++ w_out w'.
Proof.
  intros M Ha Hx. destruct (proofread_total b) as (w' & E' & H' & _).
  destruct (proofread_rewrites _ _ (simple_mark d l r a x b _ M Ha Hx H')) as (w & E & O & _). eauto 6.
Qed.
Print Assumptions C78_partial.
Example C78_case :
  option_map w_out (proofread (B "a ==b== and ~~c~~, `==d==` ==e")) =
  Some (B "a {==b==} and {--c--}, `==d==` ==e").
Proof. vm_compute. reflexivity. Qed.

(** ** C79 *)
(** The full claim: inline code is left as it is. *)
Definition C79_full : Prop := forall a x b,
  Forall (fun c => c <> tick) (a ++ x ++ b) -> x <> [] ->
  exists w p q, proofread (a ++ B "`" ++ x ++ B "`" ++ b) = Some w /\ w_out w = p ++ B "`" ++ x ++ B "`" ++ q.
(** It fails: a mark may end inside the code. *)
Theorem C79_refuted : ~ C79_full.
Proof.
  intro H. destruct (H (B "==y") (B "==") []) as (w & p & q & E & O).
  - cbn. repeat (apply Forall_cons; [discriminate|]). apply Forall_nil.
  - discriminate.
  - assert (N : option_map (fun w => strstr (B "`==`") (w_out w)) (proofread (B "==y" ++ B "`" ++ B "==" ++ B "`" ++ []))
                = Some None) by (vm_compute; reflexivity).
    rewrite E in N. apply Some_inj in N. exact (strstr_none _ _ N p q O).
Qed.
Print Assumptions C79_refuted.
(** What holds: behind a text without backticks and marks. *)
Theorem C79_partial a x b :
  Forall (fun c => c <> tick /\ c <> "="%char /\ c <> "~"%char) a -> Forall (fun c => c <> tick) x -> x <> [] ->
  (forall s, b <> tick :: s) ->
  exists w w', proofread (a ++ [tick] ++ x ++ [tick] ++ b) = Some w /\ proofread b = Some w' /\
    w_out w = a ++ [tick] ++ x ++ [tick] ++ w_out w'.
Proof.
  intros Ha Hx Nx Hb. destruct (proofread_total b) as (w' & E' & H' & _).
  destruct (proofread_rewrites _ _ (simple_tick a x b _ Ha Hx Nx Hb H')) as (w & E & O & _). eauto 6.
Qed.
Print Assumptions C79_partial.
Example C79_case : option_map w_out (proofread (B "a `~~b==` ==c==")) = Some (B "a `~~b==` {==c==}").
Proof. vm_compute. reflexivity. Qed.
