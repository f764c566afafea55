(** Lemmas about [Base]. *)
From Verif Require Import Base.

Lemma ceq_eq a b : ceq a b = true <-> a = b.
Proof. apply Ascii.eqb_eq. Qed.
Lemma ceq_neq a b : ceq a b = false <-> a <> b.
Proof. apply Ascii.eqb_neq. Qed.
Lemma ceq_refl a : ceq a a = true.
Proof. apply Ascii.eqb_refl. Qed.
Lemma ceq_sym a b : ceq a b = ceq b a.
Proof. apply Ascii.eqb_sym. Qed.

Lemma code_inj a b : code a = code b -> a = b.
Proof.
  unfold code; intros H.
  rewrite <- (ascii_N_embedding a), <- (ascii_N_embedding b), H; reflexivity.
Qed.

Lemma code_lt a : (code a < 256)%N.
Proof. apply N_ascii_bounded. Qed.

Lemma code_of_N n : (n < 256)%N -> code (ascii_of_N n) = n.
Proof. apply N_ascii_embedding. Qed.

(** A decidable property of bytes holds for all of them if it holds for the
    256 listed ones. *)
Definition all_bytes : list ascii := map (fun n => ascii_of_nat n) (seq 0 256).

Lemma all_bytes_complete c : In c all_bytes.
Proof.
  unfold all_bytes. apply in_map_iff. exists (nat_of_ascii c).
  split; [apply ascii_nat_embedding|].
  apply in_seq. split; [lia|]. pose proof (nat_ascii_bounded c). lia.
Qed.

Lemma byte_forall (P : ascii -> bool) :
  forallb P all_bytes = true -> forall c, P c = true.
Proof.
  intros H c. rewrite forallb_forall in H. apply H, all_bytes_complete.
Qed.

Lemma starts_spec lit s :
  starts lit s = true <-> exists r, s = lit ++ r.
Proof.
  revert s; induction lit as [|a lit IH]; intros s; simpl.
  - split; [exists s; reflexivity|reflexivity].
  - destruct s as [|c s]; split.
    + discriminate.
    + intros [r H]; discriminate.
    + intros H; apply andb_prop in H as [H1 H2].
      apply ceq_eq in H1; subst. apply IH in H2 as [r ->]. exists r; reflexivity.
    + intros [r H]; injection H as -> ->. rewrite ceq_refl; simpl.
      apply IH. exists r; reflexivity.
Qed.

Lemma starts_app lit r : starts lit (lit ++ r) = true.
Proof. apply starts_spec. eexists; reflexivity. Qed.

Lemma starts_false lit s :
  starts lit s = false <-> forall r, s <> lit ++ r.
Proof.
  split.
  - intros H r E. subst. rewrite starts_app in H; discriminate.
  - intros H. destruct (starts lit s) eqn:E; [|reflexivity].
    apply starts_spec in E as [r ->]. destruct (H r eq_refl).
Qed.

Lemma starts_length lit s : starts lit s = true -> length lit <= length s.
Proof. intros H; apply starts_spec in H as [r ->]. rewrite app_length; lia. Qed.

Lemma starts_skipn lit s :
  starts lit s = true -> s = lit ++ skipn (length lit) s.
Proof.
  intros H; apply starts_spec in H as [r ->].
  rewrite skipn_app, Nat.sub_diag, skipn_all. reflexivity.
Qed.

Lemma strchr_some c s i :
  strchr c s = Some i <->
  exists a b, s = a ++ c :: b /\ length a = i /\ ~ In c a.
Proof.
  revert i; induction s as [|d s IH]; intros i; simpl.
  - split; [discriminate|]. intros (a & b & H & _). destruct a; discriminate.
  - destruct (ceq c d) eqn:E.
    + apply ceq_eq in E; subst d. split.
      * intros [= <-]. exists [], s. repeat split; auto.
      * intros (a & b & H & L & N). destruct a as [|x a]; simpl in *.
        -- subst; reflexivity.
        -- injection H as -> ->. destruct N; left; reflexivity.
    + apply ceq_neq in E. split.
      * destruct (strchr c s) as [j|] eqn:Ej; simpl; [|discriminate].
        intros [= <-]. destruct (proj1 (IH j) eq_refl) as (a & b & -> & L & N).
        exists (d :: a), b. repeat split; simpl; auto.
        intros [<-|H]; auto.
      * intros (a & b & H & L & N). destruct a as [|x a]; simpl in *.
        -- injection H as -> ->; congruence.
        -- injection H as -> ->.
           assert (strchr c (a ++ c :: b) = Some (length a)) as ->.
           { apply IH. exists a, b; tauto. }
           simpl; congruence.
Qed.

Lemma strchr_none c s : strchr c s = None <-> ~ In c s.
Proof.
  induction s as [|d s IH]; simpl; [tauto|].
  destruct (ceq c d) eqn:E.
  - apply ceq_eq in E; subst; split; [discriminate|tauto].
  - apply ceq_neq in E. destruct (strchr c s); simpl.
    + split; [discriminate|]. intros H. destruct IH as [_ IH].
      exfalso. assert (Some n = None) by (apply IH; tauto). discriminate.
    + split; [|reflexivity]. intros _ [H|H]; [congruence|]. apply IH in H; auto.
Qed.

(** [strstr] finds the first occurrence. *)
Lemma strstr_some lit s i :
  strstr lit s = Some i ->
  exists a b, s = a ++ lit ++ b /\ length a = i /\
    forall a' b', s = a' ++ lit ++ b' -> length a <= length a'.
Proof.
  revert i; induction s as [|d s IH]; intros i; cbn [strstr].
  - destruct (starts lit []) eqn:E; [|discriminate]. intros [= <-].
    apply starts_spec in E as [r E]. exists [], r. repeat split; auto.
    intros; simpl; lia.
  - destruct (starts lit (d :: s)) eqn:E.
    + intros [= <-]. apply starts_spec in E as [r E]. exists [], r.
      repeat split; auto. intros; simpl; lia.
    + destruct (strstr lit s) as [j|] eqn:Ej; [|discriminate].
      intros [= <-]. destruct (IH j eq_refl) as (a & b & E1 & L & F).
      exists (d :: a), b. split; [simpl; congruence|]. split; [simpl; congruence|].
      intros a' b' H. destruct a' as [|x a'].
      * simpl in H. rewrite starts_false in E. destruct (E b' H).
      * simpl in H. injection H as -> H. simpl. apply le_n_S. eapply F, H.
Qed.

Lemma strstr_none lit s :
  strstr lit s = None -> forall a b, s <> a ++ lit ++ b.
Proof.
  induction s as [|d s IH]; cbn [strstr].
  - destruct (starts lit []) eqn:E; [discriminate|]. intros _ a b H.
    symmetry in H. apply app_eq_nil in H as [-> H].
    rewrite starts_false in E. apply (E b). auto.
  - destruct (starts lit (d :: s)) eqn:E; [discriminate|].
    destruct (strstr lit s) as [j|] eqn:Ej; [discriminate|].
    intros _ a b H. destruct a as [|x a].
    + rewrite starts_false in E. apply (E b H).
    + simpl in H. injection H as _ H. revert H. apply IH; reflexivity.
Qed.

Lemma strstr_first lit a b :
  (forall a' b', a ++ lit ++ b = a' ++ lit ++ b' -> length a <= length a') ->
  strstr lit (a ++ lit ++ b) = Some (length a).
Proof.
  intros F. destruct (strstr lit (a ++ lit ++ b)) as [i|] eqn:E.
  - apply strstr_some in E as (a1 & b1 & E1 & L & F1).
    f_equal. subst i. apply Nat.le_antisymm.
    + apply (F1 a b eq_refl).
    + apply (F a1 b1). congruence.
  - destruct (strstr_none _ _ E a b eq_refl).
Qed.

Lemma seq_eq a b : seq_ a b = true <-> a = b.
Proof.
  revert b; induction a as [|x a IH]; destruct b as [|y b]; simpl;
    try (split; congruence).
  rewrite andb_true_iff, ceq_eq, IH. split; [intros [-> ->]; auto|].
  intros [= -> ->]; auto.
Qed.

Lemma span_app f s a b : span f s = (a, b) -> s = a ++ b.
Proof.
  revert a b; induction s as [|c s IH]; intros a b; simpl.
  - intros [= <- <-]; reflexivity.
  - destruct (f c).
    + destruct (span f s) as [x y] eqn:Es. intros [= <- <-]. simpl. rewrite <- (IH x y eq_refl). reflexivity.
    + intros [= <- <-]; reflexivity.
Qed.

Lemma span_all f s a b : span f s = (a, b) -> forallb f a = true.
Proof.
  revert a b; induction s as [|c s IH]; intros a b; simpl.
  - intros [= <- <-]; reflexivity.
  - destruct (f c) eqn:E.
    + destruct (span f s) as [x y] eqn:Es. intros [= <- <-]. simpl. rewrite E; eauto.
    + intros [= <- <-]; reflexivity.
Qed.

Lemma span_stop f s a b :
  span f s = (a, b) -> match b with [] => True | c :: _ => f c = false end.
Proof.
  revert a b; induction s as [|c s IH]; intros a b; simpl.
  - intros [= <- <-]; exact I.
  - destruct (f c) eqn:E.
    + destruct (span f s) as [x y] eqn:Es. intros [= <- <-]. exact (IH _ _ eq_refl).
    + intros [= <- <-]; exact E.
Qed.

(** Writer bookkeeping: the counter is what is left of the capacity. *)
Definition w_ok (w : wr) : Prop :=
  length (w_out w) + w_rem w = w_cap w /\ w_oob w = false.

Lemma w_ok_new n : w_ok (w_new n n).
Proof. split; reflexivity. Qed.

Lemma w_put_ok c w : w_ok w -> w_ok (w_put c w).
Proof.
  intros [H1 H2]. unfold w_put. destruct (Nat.ltb_spec 0 (w_rem w)); [|split; auto].
  split; simpl.
  - rewrite app_length; simpl; lia.
  - rewrite H2; simpl. apply Nat.ltb_ge. lia.
Qed.

Lemma w_puts_lt_ok s w : w_ok w -> w_ok (w_puts_lt s w).
Proof.
  intros [H1 H2]. unfold w_puts_lt.
  destruct (Nat.ltb_spec (length s) (w_rem w)); [|split; auto].
  split; simpl.
  - rewrite app_length; simpl; lia.
  - rewrite H2; simpl. destruct s; [reflexivity|]. apply Nat.ltb_ge. lia.
Qed.

Lemma w_puts_le_ok s w : w_ok w -> w_ok (w_puts_le s w).
Proof.
  intros [H1 H2]. unfold w_puts_le.
  destruct (Nat.leb_spec (length s) (w_rem w)); [|split; auto].
  split; simpl.
  - rewrite app_length; simpl; lia.
  - rewrite H2; simpl. destruct s; [reflexivity|]. apply Nat.ltb_ge. lia.
Qed.

Lemma w_put_cap c w : w_cap (w_put c w) = w_cap w.
Proof. unfold w_put; destruct (0 <? w_rem w); reflexivity. Qed.
Lemma w_puts_lt_cap s w : w_cap (w_puts_lt s w) = w_cap w.
Proof. unfold w_puts_lt; destruct (_ <? _); reflexivity. Qed.
Lemma w_puts_le_cap s w : w_cap (w_puts_le s w) = w_cap w.
Proof. unfold w_puts_le; destruct (_ <=? _); reflexivity. Qed.

Lemma w_put_out c w : 0 < w_rem w -> w_out (w_put c w) = w_out w ++ [c].
Proof. intros H. unfold w_put. apply Nat.ltb_lt in H. rewrite H. reflexivity. Qed.
Lemma w_puts_lt_out s w :
  length s < w_rem w -> w_out (w_puts_lt s w) = w_out w ++ s.
Proof. intros H. unfold w_puts_lt. apply Nat.ltb_lt in H. rewrite H. reflexivity. Qed.
Lemma w_puts_le_out s w :
  length s <= w_rem w -> w_out (w_puts_le s w) = w_out w ++ s.
Proof. intros H. unfold w_puts_le. apply Nat.leb_le in H. rewrite H. reflexivity. Qed.

Lemma w_term_safe w : w_ok w -> (w_oob (w_term w) = false <-> 0 < w_rem w).
Proof.
  intros [H1 H2]. unfold w_term; simpl. rewrite H2; simpl.
  rewrite Nat.leb_gt. lia.
Qed.

(** [skipn] facts used by the scanners. *)
Lemma skipn_length_le {A} n (s : list A) : length (skipn n s) <= length s.
Proof. rewrite skipn_length; lia. Qed.

Lemma nul_free_app a b : nul_free (a ++ b) <-> nul_free a /\ nul_free b.
Proof. unfold nul_free; rewrite in_app_iff; tauto. Qed.

Lemma nul_free_cons c s : nul_free (c :: s) <-> c <> NUL /\ nul_free s.
Proof. unfold nul_free; simpl; tauto. Qed.

(** [injection] without the simplification. *)
Lemma Some_inj {A} (a b : A) : Some a = Some b -> a = b.
Proof. congruence. Qed.
