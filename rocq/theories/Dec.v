(** Decimal numbers as printf writes them, and their value. *)
From Coq Require Import Decimal DecimalString DecimalFacts DecimalNat.
From Verif Require Import Base BaseL.

(** [%d] of a non-negative [int] ([%u], [%zu] likewise). *)
Definition dec (n : nat) : str := B (NilZero.string_of_uint (Nat.to_uint n)).

(** Value of a digit and of a digit string. *)
Definition digit_val (c : ascii) : Z := (Z.of_N (code c) - 48)%Z.

Lemma span_digits_stop (ds : str) c rest : forallb isdigit ds = true -> isdigit c = false ->
  span isdigit (ds ++ c :: rest) = (ds, c :: rest).
Proof.
  intros D N. induction ds as [|d ds IH]; cbn; [rewrite N; reflexivity|].
  simpl in D. apply andb_true_iff in D as [D1 D2]. rewrite D1, IH by exact D2. reflexivity.
Qed.

Definition digits_value (ds : str) : Z := fold_left (fun v c => (v * 10 + digit_val c)%Z) ds 0%Z.

Lemma uint_value : forall d acc,
  fold_left (fun v c => (v * 10 + digit_val c)%Z) (B (NilEmpty.string_of_uint d)) (Z.of_nat acc) =
    Z.of_nat (Nat.of_uint_acc d acc).
Proof.
  assert (T : forall acc, Nat.tail_mul 10 acc = 10 * acc).
  { intros. rewrite Nat.tail_mul_spec. reflexivity. }
  induction d; intros acc; cbn [NilEmpty.string_of_uint B list_ascii_of_string fold_left Nat.of_uint_acc];
    [reflexivity|..];
    rewrite <- IHd; unfold B; f_equal; rewrite T;
    (match goal with |- context [digit_val ?c] =>
       let v := eval vm_compute in (digit_val c) in change (digit_val c) with v end); lia.
Qed.

Lemma dec_value n : digits_value (dec n) = Z.of_nat n.
Proof.
  unfold dec, NilZero.string_of_uint, digits_value.
  pose proof (DecimalNat.Unsigned.of_to n) as E.
  destruct (Nat.to_uint n) eqn:U; [cbn in E; subst n; reflexivity|..];
    rewrite (uint_value _ 0); fold (Nat.of_uint); unfold Nat.of_uint in E; rewrite E; reflexivity.
Qed.

Lemma uint_digits : forall d, forallb isdigit (B (NilEmpty.string_of_uint d)) = true.
Proof. induction d; cbn in *; auto. Qed.

Lemma dec_all_digits n : dec n <> [] /\ forallb isdigit (dec n) = true.
Proof.
  unfold dec, NilZero.string_of_uint. destruct (Nat.to_uint n) eqn:E;
    (split; [discriminate|]); try (rewrite <- E; apply uint_digits); try apply uint_digits; reflexivity.
Qed.
