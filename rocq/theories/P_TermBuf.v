(** The buffer of the terminal output (src/ast_terminal.c 74-97). *)
From Verif Require Import Base BaseL M_TermBuf.

(** Some of the pieces, in order *)
Inductive some_of : list str -> list str -> Prop :=
| some_nil : some_of [] []
| some_keep s a b : some_of a b -> some_of (s :: a) (s :: b)
| some_drop s a b : some_of a b -> some_of a (s :: b).
(** Either nothing was allocated yet or the text and its NUL are within what was, of which at most half is unused but for the first 256 bytes. *)
Definition sound (b : buffer) : Prop := (text b = [] /\ cap b = 0) \/ (length (text b) + 1 <= cap b /\ cap b <= Nat.max 256 (2 * (length (text b) + 1))).

Lemma append_sound ok s b : sound b -> exists b', append ok s b = Some b' /\ sound b' /\ (text b' = text b ++ s \/ (ok = false /\ text b' = text b)).
Proof.
  intro S. unfold append. destruct s as [|c s0] eqn:Es; [exists b; split; [reflexivity|]; split; [exact S|left; now rewrite app_nil_r]|]. rewrite <- Es.
  assert (L : 0 < length s) by (subst; cbn; lia). clear Es. cbv zeta. destruct (cap b <? length (text b) + length s + 1) eqn:C.
  - apply Nat.ltb_lt in C. destruct ok; [|exists b; auto]. unfold put, grown. destruct (cap b =? 0) eqn:Z.
    + destruct (256 <? length (text b) + length s + 1) eqn:G.
      * rewrite Nat.leb_refl. eexists. split; [reflexivity|]. split; [right; cbn [text cap]; rewrite app_length; lia|now left].
      * apply Nat.ltb_ge in G. rewrite (proj2 (Nat.leb_le _ _) G). eexists. split; [reflexivity|]. split; [right; cbn [text cap]; rewrite app_length; lia|now left].
    + destruct (cap b * 2 <? length (text b) + length s + 1) eqn:G.
      * rewrite Nat.leb_refl. eexists. split; [reflexivity|]. split; [right; cbn [text cap]; rewrite app_length; lia|now left].
      * apply Nat.ltb_ge in G. rewrite (proj2 (Nat.leb_le _ _) G). eexists. split; [reflexivity|]. split; [right; cbn [text cap]; rewrite app_length; lia|now left].
  - apply Nat.ltb_ge in C. unfold put. rewrite (proj2 (Nat.leb_le _ _) C). eexists. split; [reflexivity|]. split; [|now left]. right. cbn [text cap]. rewrite app_length. destruct S as [(_ & S)|S]; lia.
Qed.
Lemma appends_sound : forall l b, sound b -> exists b' k, appends l b = Some b' /\ sound b' /\ some_of k (map snd l) /\ text b' = text b ++ concat k /\ (Forall (fun x => fst x = true) l -> k = map snd l).
Proof.
  induction l as [|[ok s] l IH]; intros b S; cbn [appends map snd].
  - exists b, []. split; [reflexivity|]. split; [exact S|]. split; [constructor|]. split; [cbn; now rewrite app_nil_r|reflexivity].
  - destruct (append_sound ok s b S) as (b1 & -> & S1 & T). destruct (IH b1 S1) as (b2 & k & E & S2 & K & T2 & A). destruct T as [T|(O & T)].
    + exists b2, (s :: k). split; [exact E|]. split; [exact S2|]. split; [now constructor|]. split; [rewrite T2, T; cbn [concat]; now rewrite app_assoc|]. intro F. inversion F; subst. f_equal. now apply A.
    + exists b2, k. split; [exact E|]. split; [exact S2|]. split; [now constructor|]. split; [now rewrite T2, T|]. intro F. inversion F as [|? ? X]; subst. discriminate X.
Qed.

(** C340. However much is appended, and whichever allocations fail, nothing is written outside of the buffer and the NUL is within it; pieces are there whole and in order or not at all. *)
Theorem C340_safe l : exists b k, appends l init = Some b /\ (b = init \/ length (text b) + 1 <= cap b) /\ some_of k (map snd l) /\ text b = concat k.
Proof.
  destruct (appends_sound l init) as (b & k & E & S & K & T & _); [left; split; reflexivity|]. exists b, k. split; [exact E|]. split; [|split; [exact K|exact T]].
  destruct S as [(S1 & S2)|(S & _)]; [left|now right]. destruct b. cbn in *. now subst.
Qed.
(** If all of them succeed, everything is there. *)
Theorem C340_whole l : Forall (fun x => fst x = true) l -> exists b, appends l init = Some b /\ text b = concat (map snd l).
Proof.
  intro F. destruct (appends_sound l init) as (b & k & E & _ & _ & T & A); [left; split; reflexivity|]. exists b. split; [exact E|]. rewrite <- (A F). exact T.
Qed.
Example C340_case : exists b, appends [(true, B "abc"); (true, []); (true, repeat "x"%char 300); (false, repeat "y"%char 400); (true, B "z")] init = Some b /\ text b = B "abc" ++ repeat "x"%char 300 ++ B "z" /\ cap b = 512.
Proof. eexists. split; [vm_compute; reflexivity|]. split; vm_compute; reflexivity. Qed.
Print Assumptions C340_safe.
Print Assumptions C340_whole.

(** C341. It takes at most 256 bytes or twice what is needed. *)
Theorem C341_lean l b : appends l init = Some b -> cap b <= Nat.max 256 (2 * (length (text b) + 1)).
Proof.
  intro E. destruct (appends_sound l init) as (b' & k & E' & S & _); [left; split; reflexivity|]. rewrite E in E'. injection E' as <-. destruct S as [(_ & ->)|(_ & S)]; [lia|exact S].
Qed.
Example C341_case : exists b, appends [(true, repeat "x"%char 255); (true, B "y")] init = Some b /\ cap b = 512 /\ length (text b) = 256.
Proof. eexists. split; [vm_compute; reflexivity|]. split; vm_compute; reflexivity. Qed.
Print Assumptions C341_lean.
