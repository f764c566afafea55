(** Proofs about transforms with numeric options, their safety, and chains. *)
From Verif Require Import Base BaseL Dec M_Encode M_Meta M_Trans S_Trans L_Meta L_MetaParse L_Trans.

(** ** Chains *)
Definition fresh : tst := mktst None false.

Definition is_array_name (n : str) : bool :=
  match tname_of n with Tsplit | Tjoin | Tfirst | Tlast | Tslice => true | _ => false end.

Lemma array_name_spec n : is_array_name n = true <-> In n array_names.
Proof.
  unfold is_array_name, tname_of, array_names. cbn [In]. split.
  - destruct (seq_ n (B "split")) eqn:E1; [apply seq_eq in E1; auto|].
    destruct (seq_ n (B "join")) eqn:E2; [apply seq_eq in E2; auto|].
    destruct (seq_ n (B "first")) eqn:E3; [apply seq_eq in E3; auto|].
    destruct (seq_ n (B "last")) eqn:E4; [apply seq_eq in E4; auto 6|].
    destruct (seq_ n (B "slice")) eqn:E5; [apply seq_eq in E5; auto 7|].
    repeat match goal with |- context [if ?b then _ else _] => destruct b end; discriminate.
  - intros [<-|[<-|[<-|[<-|[<-|[]]]]]]; vm_compute; reflexivity.
Qed.

Lemma string_step L n o v st :
  is_array_name n = false -> t_is st = false ->
  apply_transform L n o v st = (string_transform L (tname_of n) o v, st).
Proof.
  unfold is_array_name, apply_transform, settle. intros N S. rewrite S.
  destruct (tname_of n); try discriminate; reflexivity.
Qed.

(** A step that starts without an array does not look at an old one. *)
Lemma step_forgets L n o v a :
  fst (apply_transform L n o v (mktst a false)) = fst (apply_transform L n o v fresh) /\
  (t_is (snd (apply_transform L n o v fresh)) = false ->
   t_is (snd (apply_transform L n o v (mktst a false))) = false) /\
  (t_is (snd (apply_transform L n o v fresh)) = true ->
   snd (apply_transform L n o v (mktst a false)) = snd (apply_transform L n o v fresh)).
Proof.
  unfold apply_transform. destruct (tname_of n);
    try (cbn [settle t_is fresh fst snd]; split; [reflexivity|split; [reflexivity|discriminate]]).
  - cbn. auto.
  - unfold as_array. cbn [t_is]. destruct (l_split L v (B ",")) as [|x [|y l]]; cbn; auto.
  - unfold as_array. cbn. auto.
  - unfold as_array. cbn. auto.
  - unfold t_slice, as_array. cbn [t_is fresh].
    destruct o as [o|]; [|cbn; auto]. destruct (scan_ld_ld o (-1)) as [[s l]|]; [|cbn; auto].
    repeat match goal with |- context [if ?b then _ else _] => destruct b end; cbn; auto.
Qed.

Lemma chain_forgets L orig c : forall v a,
  chain_loop_t L orig c v (mktst a false) = chain_loop_t L orig c v fresh.
Proof.
  induction c as [|[n o] c IH]; intros v a; [reflexivity|]. cbn [chain_loop_t].
  destruct (step_forgets L n o v a) as (H1 & H2 & H3).
  destruct (apply_transform L n o v (mktst a false)) as [r st1] eqn:E1.
  destruct (apply_transform L n o v fresh) as [r2 st2] eqn:E2. cbn [fst snd] in *. subst r2.
  destruct r; try reflexivity. destruct (t_is st2) eqn:T.
  - rewrite (H3 eq_refl). reflexivity.
  - specialize (H2 eq_refl). destruct st1 as [a1 b1], st2 as [a2 b2]. cbn [t_is] in *. subst.
    rewrite IH. symmetry. apply IH.
Qed.

(** [alone]: the transform as the only one of a chain. *)
Definition alone (L : lib) (n : str) (o : option str) (v v1 : str) : Prop :=
  fst (apply_transform L n o v fresh) = Val v1.

Lemma string_pipeline L orig c v v2 :
  Forall (fun l => ~ In (fst l) array_names) c ->
  pipeline (alone L) c v v2 -> chain_loop_t L orig c v fresh = Val v2.
Proof.
  intros F P. induction P as [v|n o c v v1 v2 A P IH]; [reflexivity|].
  inversion F as [|? ? N F']; subst. cbn [fst] in N.
  assert (NA : is_array_name n = false).
  { destruct (is_array_name n) eqn:E; [|reflexivity]. apply array_name_spec in E. contradiction. }
  cbn [chain_loop_t]. unfold alone in A. rewrite string_step in * by (auto; reflexivity).
  cbn [fst] in A. rewrite A. apply IH, F'.
Qed.

Lemma split_join_pipeline L d e c v v2 x y l :
  l_split L v (or_default d (B " ")) = x :: y :: l ->
  Forall (fun l => ~ In (fst l) array_names) c ->
  pipeline (alone L) c (join (or_default e (B ", ")) (x :: y :: l)) v2 ->
  apply_chain L ((B "split", d) :: (B "join", e) :: c) v = Val v2.
Proof.
  intros S F P. unfold apply_chain. cbn [chain_loop_t].
  change (apply_transform L (B "split") d v {| t_arr := None; t_is := false |})
    with (Val (hd [] (l_split L v (or_default d (B " ")))),
          mktst (Some (l_split L v (or_default d (B " ")))) true).
  rewrite S. cbn [hd].
  change (apply_transform L (B "join") e x {| t_arr := Some (x :: y :: l); t_is := true |})
    with (Val (join (or_default e (B ", ")) (x :: y :: l)), mktst (Some (x :: y :: l)) false).
  cbv iota. rewrite chain_forgets. apply string_pipeline; assumption.
Qed.

Lemma split_string_pipeline L d c v v2 x y l : c <> [] ->
  l_split L v (or_default d (B " ")) = x :: y :: l ->
  Forall (fun l => ~ In (fst l) array_names) c ->
  pipeline (alone L) c (join (B ", ") (x :: y :: l)) v2 ->
  apply_chain L ((B "split", d) :: c) v = Val v2.
Proof.
  intros N S F P. unfold apply_chain. cbn [chain_loop_t].
  change (apply_transform L (B "split") d v {| t_arr := None; t_is := false |})
    with (Val (hd [] (l_split L v (or_default d (B " ")))),
          mktst (Some (l_split L v (or_default d (B " ")))) true).
  rewrite S. cbn [hd]. destruct c as [|[n o] c]; [congruence|]. clear N.
  inversion P as [|? ? ? ? v1 ? A P']; subst. inversion F as [|? ? Nn F']; subst. cbn [fst] in Nn.
  assert (NA : is_array_name n = false).
  { destruct (is_array_name n) eqn:E; [|reflexivity]. apply array_name_spec in E. contradiction. }
  unfold alone in A. rewrite string_step in A by (auto; reflexivity). cbn [fst] in A.
  assert (E : apply_transform L n o x (mktst (Some (x :: y :: l)) true) = (Val v1, mktst (Some (x :: y :: l)) false)).
  { rewrite <- A. unfold is_array_name, apply_transform, settle in *. cbn [t_is t_arr].
    destruct (tname_of n); try discriminate; reflexivity. }
  cbn [chain_loop_t]. rewrite E. rewrite chain_forgets. apply string_pipeline; assumption.
Qed.

(** ** Numbers in options *)
Lemma scan_dec n r :
  (Z.of_nat n <= long_max)%Z -> (forall c s, r = c :: s -> isdigit c = false) ->
  scan_ld (dec n ++ r) = Some (Z.of_nat n, r).
Proof.
  intros L R. unfold scan_ld. destruct (dec_all_digits n) as [D1 D2]. pose proof (dec_value n) as V.
  destruct (dec n) as [|d ds] eqn:E; [congruence|]. cbn [app].
  assert (Dd : isdigit d = true) by (cbn in D2; apply andb_true_iff in D2; tauto).
  assert (X : isspace d = false /\ ceq d "-" = false /\ ceq d "+" = false).
  { assert (forall c, implb (isdigit c) (negb (isspace c) && negb (ceq c "-") && negb (ceq c "+")) = true) as H
      by (apply byte_forall; vm_compute; reflexivity).
    specialize (H d). rewrite Dd in H. cbn [implb] in H. rewrite !andb_true_iff, !negb_true_iff in H. tauto. }
  destruct X as (X1 & X2 & X3). cbn [span]. rewrite X1. cbn [snd].
  change (at_ (d :: ds ++ r) 0) with d. rewrite X2, X3.
  assert (Sp : span isdigit (d :: ds ++ r) = (d :: ds, r)).
  { change (d :: ds ++ r) with ((d :: ds) ++ r). destruct r as [|c r].
    - rewrite app_nil_r. clear - D2. induction (d :: ds) as [|x l IH]; [reflexivity|].
      cbn [forallb] in D2. apply andb_true_iff in D2 as [H1 H2]. cbn [span]. rewrite H1, IH by exact H2. reflexivity.
    - apply span_digits_stop; [exact D2|eapply R; reflexivity]. }
  rewrite Sp, V. f_equal. f_equal. unfold clamp, long_max in *. lia.
Qed.

Lemma scan_dec_end n : (Z.of_nat n <= long_max)%Z -> scan_ld (dec n) = Some (Z.of_nat n, []).
Proof.
  intros L. rewrite <- (app_nil_r (dec n)) at 1. apply scan_dec; [exact L|]. discriminate.
Qed.

Lemma scan_pair a b :
  (Z.of_nat a <= long_max)%Z -> (Z.of_nat b <= long_max)%Z ->
  scan_ld_ld (dec a ++ ","%char :: dec b) (-1) = Some (Z.of_nat a, Z.of_nat b).
Proof.
  intros La Lb. unfold scan_ld_ld. rewrite scan_dec by (auto; intros c s [= <- _]; reflexivity).
  change (at_ (","%char :: dec b) 0) with ","%char. rewrite ceq_refl. cbn [skipn].
  rewrite scan_dec_end by exact Lb. reflexivity.
Qed.

Lemma scan_single a d :
  (Z.of_nat a <= long_max)%Z -> scan_ld_ld (dec a) d = Some (Z.of_nat a, d).
Proof. intros L. unfold scan_ld_ld. rewrite scan_dec_end by exact L. reflexivity. Qed.

Lemma scan_word s : Forall (fun c => ~ In c (B " ") /\ isspace c = false) s -> length s <= 63 -> scan_word63 s = s.
Proof.
  intros F L. unfold scan_word63.
  assert (E : snd (span isspace s) = s).
  { destruct F as [|c s [_ C] F]; [reflexivity|]. cbn [span]. rewrite C. reflexivity. }
  rewrite E.
  assert (E2 : span (fun c => negb (isspace c)) s = (s, [])).
  { clear - F. induction F as [|c s [_ C] F IH]; [reflexivity|]. cbn [span]. rewrite C, IH. reflexivity. }
  rewrite E2. cbn [fst]. apply firstn_all2, L.
Qed.

(** ** truncate *)
Lemma truncate_ok n s v :
  (Z.of_nat n < long_max)%Z -> Forall (fun c => isspace c = false) s -> length s <= 63 ->
  (length s < n \/ s = []) ->
  t_truncate (Some (dec n ++ ","%char :: s)) v =
  Val (if length v <=? n then v else firstn (n - length s) v ++ s).
Proof.
  intros Ln F Ls G. unfold t_truncate.
  rewrite scan_dec by (try lia; intros c r [= <- _]; reflexivity).
  change (at_ (","%char :: s) 0) with ","%char. rewrite ceq_refl. cbn [skipn].
  rewrite scan_word; [|eapply Forall_impl; [|exact F]; intros c C; split; [|exact C];
    intros [<-|[]]; discriminate|exact Ls].
  destruct (Nat.leb_spec (length v) n) as [H|H].
  - destruct (Z.leb_spec (Z.of_nat (length v)) (Z.of_nat n)); [reflexivity|lia].
  - destruct (Z.leb_spec (Z.of_nat (length v)) (Z.of_nat n)) as [X|X]; [lia|].
    set (k := (if (Z.of_nat (length s) <? Z.of_nat n)%Z then Z.of_nat n - Z.of_nat (length s) else Z.of_nat n)%Z).
    assert (K : k = Z.of_nat (n - length s)).
    { unfold k. destruct (Z.ltb_spec (Z.of_nat (length s)) (Z.of_nat n)) as [Y|Y]; [lia|].
      destruct G as [G| ->]; [lia|]. cbn [length]. rewrite Nat.sub_0_r. reflexivity. }
    rewrite K. unfold two64, long_max in *.
    rewrite (Z.mod_small (Z.of_nat (n - length s))) by lia.
    assert (Sum : (Z.of_nat (n - length s) + Z.of_nat (length s) + 1 <= 9223372036854775807)%Z).
    { destruct G as [G| ->]; [lia|]. cbn [length]. lia. }
    rewrite Z.mod_small by lia.
    destruct (Z.ltb_spec 9223372036854775807 (Z.of_nat (n - length s) + Z.of_nat (length s) + 1)); [lia|].
    destruct (Z.ltb_spec (Z.of_nat (n - length s) + Z.of_nat (length s) + 1)
                         (Z.of_nat (n - length s) + Z.of_nat (length s) + 1)); [lia|].
    destruct (Z.ltb_spec (Z.of_nat (length v)) (Z.of_nat (n - length s))); [lia|].
    cbn [orb]. rewrite Nat2Z.id. reflexivity.
Qed.

Lemma truncate_length n (s v : str) :
  (length s < n \/ s = []) ->
  length (if length v <=? n then v else firstn (n - length s) v ++ s) <= n.
Proof.
  intros G. destruct (Nat.leb_spec (length v) n) as [H|H]; [exact H|].
  rewrite app_length, firstn_length. destruct G as [G| ->]; cbn [length]; lia.
Qed.

(** ** substring *)
Lemma substring_ok a b v :
  (Z.of_nat a <= long_max)%Z -> (Z.of_nat b <= long_max)%Z ->
  t_substring (Some (dec a ++ ","%char :: dec b)) v = Val (firstn (b - a) (skipn a v)).
Proof.
  intros La Lb. unfold t_substring. rewrite scan_pair by assumption.
  destruct (Z.ltb_spec (Z.of_nat a) 0); [lia|]. destruct (Z.ltb_spec (Z.of_nat b) 0); [lia|].
  destruct (Z.ltb_spec (Z.of_nat a) 0); [lia|]. destruct (Z.ltb_spec (Z.of_nat b) 0); [lia|].
  destruct (Z.ltb_spec (Z.of_nat (length v)) (Z.of_nat a)) as [A|A];
    destruct (Z.ltb_spec (Z.of_nat (length v)) (Z.of_nat b)) as [Bb|Bb].
  - destruct (Z.ltb_spec (Z.of_nat (length v)) (Z.of_nat (length v))); [lia|].
    destruct (Z.ltb_spec (Z.of_nat (length v)) 0); [lia|]. cbn [orb].
    rewrite Z.sub_diag, (@skipn_all2 _ a v) by lia. rewrite firstn_nil. reflexivity.
  - destruct (Z.ltb_spec (Z.of_nat b) (Z.of_nat (length v))) as [X|X].
    + rewrite (@skipn_all2 _ a v) by lia. rewrite firstn_nil. reflexivity.
    + destruct (Z.ltb_spec (Z.of_nat (length v)) 0); [lia|].
      destruct (Z.ltb_spec (Z.of_nat (length v)) (Z.of_nat b)); [lia|]. cbn [orb].
      replace (Z.of_nat b - Z.of_nat (length v))%Z with 0%Z by lia.
      rewrite (@skipn_all2 _ a v) by lia. rewrite firstn_nil. reflexivity.
  - destruct (Z.ltb_spec (Z.of_nat (length v)) (Z.of_nat a)); [lia|].
    destruct (Z.ltb_spec (Z.of_nat a) 0); [lia|].
    destruct (Z.ltb_spec (Z.of_nat (length v)) (Z.of_nat (length v))); [lia|]. cbn [orb].
    rewrite Nat2Z.id. f_equal. rewrite !firstn_all2; auto; rewrite skipn_length; lia.
  - destruct (Z.ltb_spec (Z.of_nat b) (Z.of_nat a)) as [X|X].
    + replace (b - a) with 0 by lia. reflexivity.
    + destruct (Z.ltb_spec (Z.of_nat a) 0); [lia|].
      destruct (Z.ltb_spec (Z.of_nat (length v)) (Z.of_nat b)); [lia|]. cbn [orb].
      rewrite Nat2Z.id. replace (Z.to_nat (Z.of_nat b - Z.of_nat a)) with (b - a) by lia. reflexivity.
Qed.

(** Without an end the last byte is left out. *)
Lemma substring_open a v :
  (Z.of_nat a <= long_max)%Z -> a < length v ->
  t_substring (Some (dec a)) v = Val (firstn (length v - 1 - a) (skipn a v)).
Proof.
  intros La L. unfold t_substring. rewrite scan_single by assumption.
  destruct (Z.ltb_spec (Z.of_nat a) 0); [lia|].
  change (-1 <? 0)%Z with true. cbv iota.
  destruct (Z.ltb_spec (Z.of_nat a) 0); [lia|].
  destruct (Z.ltb_spec (Z.of_nat (length v) + -1) 0); [lia|].
  destruct (Z.ltb_spec (Z.of_nat (length v)) (Z.of_nat a)); [lia|].
  destruct (Z.ltb_spec (Z.of_nat (length v)) (Z.of_nat (length v) + -1)); [lia|].
  destruct (Z.ltb_spec (Z.of_nat (length v) + -1) (Z.of_nat a)); [lia|].
  destruct (Z.ltb_spec (Z.of_nat a) 0); [lia|].
  destruct (Z.ltb_spec (Z.of_nat (length v)) (Z.of_nat (length v) + -1)); [lia|]. cbn [orb].
  rewrite Nat2Z.id. replace (Z.to_nat (Z.of_nat (length v) + -1 - Z.of_nat a)) with (length v - 1 - a) by lia.
  reflexivity.
Qed.

(** ** Safety *)
Lemma substring_safe o v : t_substring o v <> Bad.
Proof.
  unfold t_substring. destruct o as [o|]; [|discriminate].
  destruct (scan_ld_ld o (-1)) as [[s e]|]; [|discriminate]. cbv zeta.
  set (len := Z.of_nat (length v)).
  set (s1 := (if s <? 0 then len + s else s)%Z). set (e1 := (if e <? 0 then len + e else e)%Z).
  assert (H : (0 <= len)%Z) by (unfold len; lia). clearbody len s1 e1.
  destruct (Z.ltb_spec s1 0); destruct (Z.ltb_spec e1 0);
    repeat match goal with |- context [(?a <? ?b)%Z] => destruct (Z.ltb_spec a b) end;
    cbn [orb]; try discriminate; lia.
Qed.

(** A short number in the options: no minus sign, at most nine digits. *)
Definition small_options (o : option str) : Prop :=
  match o with
  | None => True
  | Some o => ~ In "-"%char o /\ length (filter isdigit o) <= 9
  end.

Lemma digits_bound d : forallb isdigit d = true ->
  (0 <= digits_value d < 10 ^ Z.of_nat (length d))%Z.
Proof.
  intros D. unfold digits_value.
  assert (G : forall acc, (0 <= acc)%Z ->
    (0 <= fold_left (fun v c => (v * 10 + digit_val c)%Z) d acc < (acc + 1) * 10 ^ Z.of_nat (length d))%Z).
  { induction d as [|c d IH]; intros acc A; [cbn; lia|]. cbn [forallb] in D.
    apply andb_true_iff in D as [D1 D2]. cbn [fold_left length].
    assert (V : (0 <= digit_val c <= 9)%Z).
    { unfold isdigit, between in D1. unfold digit_val. lia. }
    specialize (IH D2 (acc * 10 + digit_val c)%Z ltac:(lia)).
    replace (Z.of_nat (S (length d))) with (Z.succ (Z.of_nat (length d))) by lia.
    rewrite Z.pow_succ_r by lia. nia. }
  specialize (G 0%Z ltac:(lia)). lia.
Qed.

Lemma scan_small o n r :
  ~ In "-"%char o -> length (filter isdigit o) <= 9 -> scan_ld o = Some (n, r) ->
  (0 <= n < 1000000000)%Z.
Proof.
  intros M F. unfold scan_ld. destruct (span isspace o) as [lead s1] eqn:E0. cbn [snd].
  apply span_app in E0.
  assert (Hm : ceq (at_ s1 0) "-" = false).
  { apply ceq_neq. intros X. apply M. rewrite E0. apply in_or_app. right.
    destruct s1 as [|c s1]; [discriminate|]. left. exact X. }
  rewrite Hm.
  set (s2 := if ceq (at_ s1 0) "+" then skipn 1 s1 else s1).
  assert (Es : (if ceq (at_ s1 0) "+" then (false, skipn 1 s1) else (false, s1)) = (false, s2)).
  { unfold s2. destruct (ceq (at_ s1 0) "+"); reflexivity. }
  rewrite Es. destruct (span isdigit s2) as [d s3] eqn:E2.
  pose proof (span_all _ _ _ _ E2) as D. apply span_app in E2.
  assert (Ld : length d <= 9).
  { assert (Fd : filter isdigit d = d).
    { clear - D. induction d as [|c d IH]; [reflexivity|]. cbn [forallb] in D.
      apply andb_true_iff in D as [D1 D2]. cbn [filter]. rewrite D1, IH by exact D2. reflexivity. }
    assert (L2 : length (filter isdigit d) <= length (filter isdigit s2)).
    { rewrite E2, filter_app, app_length. lia. }
    assert (L1 : length (filter isdigit s2) <= length (filter isdigit s1)).
    { unfold s2. destruct (ceq (at_ s1 0) "+"); [|lia]. destruct s1 as [|c s1]; [cbn; lia|].
      cbn [skipn filter]. destruct (isdigit c); cbn; lia. }
    assert (L0 : length (filter isdigit s1) <= length (filter isdigit o)).
    { rewrite E0, filter_app, app_length. lia. }
    rewrite Fd in L2. lia. }
  destruct d as [|c d]; [discriminate|]. intros [= <- _].
  pose proof (digits_bound _ D) as V.
  assert (P : (10 ^ Z.of_nat (length (c :: d)) <= 10 ^ 9)%Z) by (apply Z.pow_le_mono_r; lia).
  change (10 ^ 9)%Z with 1000000000%Z in P. unfold clamp, long_max. lia.
Qed.

Lemma truncate_safe o v : small_options o -> t_truncate o v <> Bad.
Proof.
  intros S. unfold t_truncate. destruct o as [o|]; [|discriminate]. destruct S as [S1 S2].
  destruct (scan_ld o) as [[mx r]|] eqn:E; [|discriminate].
  pose proof (scan_small _ _ _ S1 S2 E) as B.
  set (suffix := if ceq (at_ r 0) "," then scan_word63 (skipn 1 r) else []). cbv zeta.
  assert (Ls : length suffix <= 63).
  { unfold suffix. destruct (ceq (at_ r 0) ","); [|cbn; lia]. unfold scan_word63. apply firstn_le_length. }
  destruct (Z.leb_spec (Z.of_nat (length v)) mx) as [H|H]; [discriminate|].
  set (k := (if (Z.of_nat (length suffix) <? mx)%Z then mx - Z.of_nat (length suffix) else mx)%Z).
  assert (K : (0 <= k <= mx)%Z).
  { unfold k. destruct (Z.ltb_spec (Z.of_nat (length suffix)) mx); lia. }
  clearbody k suffix. unfold two64, long_max.
  rewrite (Z.mod_small k) by lia. rewrite Z.mod_small by lia.
  repeat match goal with |- context [(?a <? ?b)%Z] => destruct (Z.ltb_spec a b) end;
    cbn [orb]; try discriminate; lia.
Qed.

Lemma repeat_safe o v : small_options o -> (Z.of_nat (length v) < 2 ^ 33)%Z -> t_repeat o v <> Bad.
Proof.
  intros S Lv. unfold t_repeat. destruct o as [o|]; [|discriminate]. destruct S as [S1 S2].
  destruct (scan_ld o) as [[n r]|] eqn:E; [|discriminate].
  pose proof (scan_small _ _ _ S1 S2 E) as B. destruct (n <=? 0)%Z; [discriminate|].
  destruct v as [|c v]; [discriminate|]. set (V := c :: v) in *. cbv zeta.
  change (2 ^ 33)%Z with 8589934592%Z in Lv. unfold two64, long_max.
  rewrite Z.mod_small by nia.
  destruct (Z.ltb_spec 9223372036854775807 (Z.of_nat (length V) * n + 1)); [discriminate|].
  destruct (Z.ltb_spec (Z.of_nat (length V) * n + 1) (Z.of_nat (length V) * n + 1)); [lia|discriminate].
Qed.

Lemma pad_safe o v : small_options o -> t_pad o v <> Bad.
Proof.
  intros S. unfold t_pad. destruct o as [o|]; [|discriminate]. destruct S as [S1 S2].
  destruct (scan_ld o) as [[n r]|] eqn:E; [|discriminate].
  pose proof (scan_small _ _ _ S1 S2 E) as B. cbv zeta.
  destruct (n <=? Z.of_nat (length v))%Z; [discriminate|].
  unfold long_max. destruct (Z.eqb_spec n 9223372036854775807); [lia|discriminate].
Qed.

Lemma replace_safe L o v :
  (forall r, o <> Some (B "regex:" ++ r)) -> t_replace L o v <> Bad.
Proof.
  intros N. unfold t_replace. destruct o as [o|]; [|discriminate].
  destruct (cut "," o) as [[old new]|]; [|discriminate].
  destruct old as [|c old]; [discriminate|].
  destruct (starts (B "regex:") o) eqn:S.
  - apply starts_spec in S as [r ->]. destruct (N r eq_refl).
  - destruct (replace_literal_ok (c :: old) new v ltac:(discriminate)) as (w & -> & W & _).
    unfold of_wr. rewrite W. discriminate.
Qed.

(** The transforms that end in a library function of unknown behaviour. *)
Definition uses_library (t : str) (o : option str) : Prop :=
  t = B "format" \/ (t = B "replace" /\ exists r, o = Some (B "regex:" ++ r)).

Lemma tname_format n : tname_of n = Tformat -> n = B "format".
Proof.
  unfold tname_of.
  repeat match goal with |- context [if ?b then _ else _] => destruct b eqn:?; try discriminate end.
  intros _. match goal with H : seq_ n (B "format") = true |- _ => apply seq_eq in H; exact H end.
Qed.
Lemma tname_replace n : tname_of n = Treplace -> n = B "replace".
Proof.
  unfold tname_of.
  repeat match goal with |- context [if ?b then _ else _] => destruct b eqn:?; try discriminate end.
  intros _. match goal with H : seq_ n (B "replace") = true |- _ => apply seq_eq in H; exact H end.
Qed.

Lemma string_safe L n o v :
  ~ uses_library n o -> small_options o -> (Z.of_nat (length v) < 2 ^ 33)%Z ->
  string_transform L (tname_of n) o v <> Bad.
Proof.
  intros U S Lv. destruct (tname_of n) eqn:T; cbn [string_transform]; try discriminate.
  - destruct o; discriminate.
  - unfold of_wr. rewrite (proj1 (slug_ok v)). discriminate.
  - apply replace_safe. intros r ->. apply U. right. split; [apply tname_replace, T|eauto].
  - apply substring_safe.
  - apply truncate_safe, S.
  - unfold of_wr. rewrite (proj1 (escape_ok v)). discriminate.
  - unfold of_wr. rewrite (proj1 (urlencode_ok v)). discriminate.
  - unfold of_wr, t_urldecode.
    assert (F : fits (urldecode_loop (w_new (length v + 1) 0) v)).
    { eapply urldecode_fits; [reflexivity|apply new_fits|cbn [w_new w_out w_cap length]; lia]. }
    rewrite (proj1 F). discriminate.
  - unfold t_remove. destruct o as [[|c o]|]; try discriminate. unfold of_wr.
    destruct (remove_loop_ok (c :: o) (length v) ltac:(discriminate) v (w_new (length v + 1) 0)) as (r & R1 & _);
      [lia|apply new_fits|cbn [w_new w_out w_cap length]; lia|].
    rewrite (proj1 R1). discriminate.
  - apply repeat_safe; assumption.
  - exfalso. apply U. left. apply tname_format, T.
  - apply pad_safe, S.
Qed.

Lemma transform_safe L n o v st :
  ~ uses_library n o -> small_options o ->
  (Z.of_nat (length (fst (settle st v))) < 2 ^ 33)%Z ->
  (match t_arr st with Some a => Z.of_nat (length a) < 2 ^ 33 | None => True end)%Z ->
  (Z.of_nat (length v) < 2 ^ 33)%Z ->
  fst (apply_transform L n o v st) <> Bad.
Proof.
  intros U S L1 L2 L3.
  assert (G : forall t, tname_of n = t -> fst (let (v1, st1) := settle st v in (string_transform L t o v1, st1)) <> Bad).
  { intros t T. destruct (settle st v) as [v1 st1]. cbn [fst] in *. subst t. apply string_safe; assumption. }
  unfold apply_transform. destruct (tname_of n) eqn:T; try (apply (G _ eq_refl)); try discriminate.
  - destruct (as_array st (l_split L v (B ","))) as [|x [|y l]]; discriminate.
  - unfold t_slice. set (arr := as_array st (map (fun c => [c]) v)).
    assert (La : (Z.of_nat (length arr) < 2 ^ 33)%Z).
    { unfold arr, as_array. destruct (t_is st); [destruct (t_arr st); [exact L2|]|]; rewrite map_length; exact L3. }
    destruct o as [o|]; [|discriminate]. destruct S as [S1 S2].
    unfold scan_ld_ld. destruct (scan_ld o) as [[s r]|] eqn:E; [|discriminate].
    pose proof (scan_small _ _ _ S1 S2 E) as B1.
    set (l0 := if ceq (at_ r 0) "," then match scan_ld (skipn 1 r) with Some (b, _) => Some (s, b) | None => Some (s, (-1)%Z) end else Some (s, (-1)%Z)).
    assert (Bl : exists l, l0 = Some (s, l) /\ (-1 <= l < 1000000000)%Z).
    { unfold l0. destruct (ceq (at_ r 0) ","); [|exists (-1)%Z; split; [reflexivity|lia]].
      destruct (scan_ld (skipn 1 r)) as [[b r2]|] eqn:E2; [|exists (-1)%Z; split; [reflexivity|lia]].
      exists b. split; [reflexivity|].
      assert (Sub : exists p, o = p ++ r).
      { unfold scan_ld in E. destruct (span isspace o) as [p1 s1] eqn:X1. cbn [snd] in E. apply span_app in X1.
        assert (Y : exists q, s1 = q ++ r).
        { destruct (if ceq (at_ s1 0) "-" then (true, skipn 1 s1) else if ceq (at_ s1 0) "+" then (false, skipn 1 s1) else (false, s1)) as [ng s2] eqn:X2.
          destruct (span isdigit s2) as [d s3] eqn:X3. destruct d as [|d0 d]; [discriminate|].
          injection E as _ <-. apply span_app in X3.
          assert (Z : exists q, s1 = q ++ s2).
          { destruct (ceq (at_ s1 0) "-"); [|destruct (ceq (at_ s1 0) "+")]; injection X2 as _ <-;
              try (exists (firstn 1 s1); symmetry; apply firstn_skipn); exists []; reflexivity. }
          destruct Z as [q ->]. exists (q ++ d0 :: d). rewrite <- app_assoc, <- X3. reflexivity. }
        destruct Y as [q ->]. exists (p1 ++ q). rewrite <- app_assoc. exact X1. }
      destruct Sub as [p Ep].
      assert (B2 : (0 <= b < 1000000000)%Z); [|lia].
      eapply scan_small; [| |exact E2].
      - intros I. apply S1. rewrite Ep. apply in_or_app. right. destruct r; [destruct I|right; exact I].
      - assert (length (filter isdigit (skipn 1 r)) <= length (filter isdigit o)); [|lia].
        rewrite Ep, filter_app, app_length. destruct r as [|c r]; [cbn; lia|].
        cbn [skipn filter]. destruct (isdigit c); cbn; lia. }
    destruct Bl as (l & -> & Bl). cbv zeta.
    change (2 ^ 33)%Z with 8589934592%Z in *. unfold long_max.
    destruct (Z.ltb_spec s 0); [lia|]. destruct (Z.leb_spec (Z.of_nat (length arr)) s); [discriminate|].
    destruct (Z.ltb_spec l 0).
    + destruct (Z.ltb_spec 9223372036854775807 (s + (Z.of_nat (length arr) - s))); [lia|discriminate].
    + destruct (Z.ltb_spec 9223372036854775807 (s + l)); [lia|discriminate].
Qed.

(** ** pad and repeat *)
Lemma pad_ok n c v :
  (Z.of_nat n < long_max)%Z ->
  t_pad (Some (dec n ++ [","%char; c])) v = Val (repeat c (n - length v) ++ v).
Proof.
  intros L. unfold t_pad. rewrite scan_dec by (try lia; intros d r [= <- _]; reflexivity).
  change (at_ [","%char; c] 0) with ","%char. rewrite ceq_refl. cbn [skipn].
  destruct (Z.leb_spec (Z.of_nat n) (Z.of_nat (length v))) as [H|H].
  - replace (n - length v) with 0 by lia. reflexivity.
  - destruct (Z.eqb_spec (Z.of_nat n) long_max); [lia|]. rewrite Nat2Z.id. reflexivity.
Qed.

(** ** Single transforms as chains *)
Lemma chain_one L n o v v1 : alone L n o v v1 <-> fst (apply_transform L n o v fresh) = Val v1.
Proof. reflexivity. Qed.

Lemma run_one L n o v r :
  is_array_name n = false -> string_transform L (tname_of n) o v = Val r -> apply_chain L [(n, o)] v = Val r.
Proof.
  intros N S. unfold apply_chain. cbn [chain_loop_t]. fold fresh.
  rewrite string_step by (auto; reflexivity). rewrite S. reflexivity.
Qed.

Lemma run_urlencode L v : nul_free v ->
  exists e, apply_chain L [(B "urlencode", None)] v = Val e /\ url_text e /\
    apply_chain L [(B "urlencode", None); (B "urldecode", None)] v = Val v.
Proof.
  intros N. destruct (url_round_trip v N) as (e & E1 & E2 & E3). exists e.
  assert (A : alone L (B "urlencode") None v e) by exact E1.
  assert (A2 : alone L (B "urldecode") None e v) by exact E3.
  split; [apply run_one; [reflexivity|exact E1]|]. split; [exact E2|].
  apply string_pipeline.
  - assert (H : forall n, is_array_name n = false -> ~ In n array_names).
    { intros n Hn I. apply array_name_spec in I. congruence. }
    apply Forall_cons; [apply H; reflexivity|]. apply Forall_cons; [apply H; reflexivity|apply Forall_nil].
  - eapply pl_cons; [exact A|]. eapply pl_cons; [exact A2|apply pl_nil].
Qed.

Lemma nul_free_Forall (P : ascii -> Prop) s : ~ P NUL -> Forall P s -> nul_free s.
Proof. intros N F I. unfold nul_free in *. rewrite Forall_forall in F. apply N, F, I. Qed.

Lemma run_slug L v :
  exists r, apply_chain L [(B "slug", None)] v = Val r /\ clean_slug r.
Proof.
  destruct (slug_ok v) as [S1 S2]. exists (w_out (t_slug v)). split; [|exact S2].
  apply run_one; [reflexivity|]. change (string_transform L (tname_of (B "slug")) None v) with (of_wr (Some (t_slug v))).
  unfold of_wr. rewrite S1, cstr_id; [reflexivity|]. destruct S2 as [S2 _].
  eapply nul_free_Forall; [|exact S2]. unfold slug_byte. change (code NUL) with 0%N. intros [X|[X|X]]; [lia|lia|discriminate].
Qed.

(** Bytes of the shown text come from the reference syntax or the text. *)
Lemma dec_nul n : ~ In NUL (dec n).
Proof.
  intros I. destruct (dec_all_digits n) as [_ D]. rewrite forallb_forall in D. specialize (D _ I). discriminate.
Qed.
Lemma escape_byte_nul c : c <> NUL -> ~ In NUL (escape_byte c).
Proof.
  intros N. unfold escape_byte.
  destruct (ceq c "&"); [intros I; repeat (destruct I as [I|I]; [discriminate|]); exact I|].
  destruct (ceq c "<"); [intros I; repeat (destruct I as [I|I]; [discriminate|]); exact I|].
  destruct (ceq c ">"); [intros I; repeat (destruct I as [I|I]; [discriminate|]); exact I|].
  destruct (ceq c DQ); [intros I; repeat (destruct I as [I|I]; [discriminate|]); exact I|].
  destruct (ceq c SQ); [intros I; repeat (destruct I as [I|I]; [discriminate|]); exact I|].
  destruct (between 32 126 c); [intros [I|[]]; congruence|].
  rewrite !in_app_iff. intros [I|[I|I]].
  - repeat (destruct I as [I|I]; [discriminate|]); exact I.
  - exact (dec_nul _ I).
  - repeat (destruct I as [I|I]; [discriminate|]); exact I.
Qed.

Lemma run_escape L v : nul_free v ->
  exists e, apply_chain L [(B "escape", None)] v = Val e /\ shows e (map code v) /\
    forall c, In c e -> ~ In c (B "<>""'").
Proof.
  intros N. destruct (escape_ok v) as (E1 & E2 & E3). exists (w_out (t_escape v)).
  split; [|split; assumption]. apply run_one; [reflexivity|].
  change (string_transform L (tname_of (B "escape")) None v) with (of_wr (Some (t_escape v))).
  unfold of_wr. rewrite E1, cstr_id; [reflexivity|].
  assert (E : w_out (t_escape v) = flat_map escape_byte v).
  { unfold t_escape. destruct (escape_loop_ok v (w_new (length v * 6 + 1) 0)) as [_ E];
      [apply new_fits|cbn [w_new w_out w_cap length]; lia|]. exact E. }
  rewrite E. intros I. apply in_flat_map in I as (c & I1 & I2).
  revert I2. apply escape_byte_nul. intros ->. exact (N I1).
Qed.

(** What a text shows is determined. *)
Lemma dec_inj a b : dec a = dec b -> a = b.
Proof. intros E. pose proof (dec_value a) as H. rewrite E, dec_value in H. lia. Qed.

Lemma digits_prefix (a b x y : str) c :
  forallb isdigit a = true -> forallb isdigit b = true -> isdigit c = false ->
  a ++ c :: x = b ++ c :: y -> a = b /\ x = y.
Proof.
  intros A Bb C E.
  assert (H : (a, c :: x) = (b, c :: y)); [|injection H as -> ->; auto].
  rewrite <- (span_digits_stop a c x), <- (span_digits_stop b c y) by assumption. rewrite E. reflexivity.
Qed.

Lemma shows_fun e l : shows e l -> forall l', shows e l' -> l = l'.
Proof.
  induction 1 as [|c s l C1 C2 H IH|s l H IH|s l H IH|s l H IH|s l H IH|n s l H IH]; intros l' H';
    inversion H' as [|c0 s0 l0 D1 D2 D3 D4|s0 l0 D3 D4|s0 l0 D3 D4|s0 l0 D3 D4|s0 l0 D3 D4|n0 s0 l0 D3 D4]; subst;
    try reflexivity;
    try (exfalso; match goal with C : ~ In _ _ |- _ => apply C; left; reflexivity end);
    try (f_equal; apply IH; assumption);
    try discriminate.
  destruct (digits_prefix (dec n0) (dec n) s0 s ";") as [E1 E2]; try apply dec_all_digits; [reflexivity|exact D4|].
  apply dec_inj in E1. subst. f_equal. apply IH, D3.
Qed.

(** Literal replacement. *)
Lemma subst_nul old new v o : subst_all old new v o -> nul_free v -> nul_free new -> nul_free o.
Proof.
  unfold nul_free. induction 1 as [v H|a b o F H IH]; intros V N I; [exact (V I)|].
  rewrite !in_app_iff in I. destruct I as [I|[I|I]].
  - apply V. apply in_or_app. left. exact I.
  - exact (N I).
  - apply IH; auto. intros J. apply V. rewrite !in_app_iff. auto.
Qed.

Lemma run_replace L old new v :
  old <> [] -> ~ In ","%char old -> (forall r, old ++ ","%char :: new <> B "regex:" ++ r) ->
  nul_free v -> nul_free new ->
  exists r, apply_chain L [(B "replace", Some (old ++ ","%char :: new))] v = Val r /\ subst_all old new v r.
Proof.
  intros O C R V N. destruct (replace_literal_ok old new v O) as (w & W1 & W2 & W3).
  exists (w_out w). split; [|exact W3]. apply run_one; [reflexivity|].
  change (string_transform L (tname_of (B "replace")) (Some (old ++ ","%char :: new)) v)
    with (t_replace L (Some (old ++ ","%char :: new)) v).
  unfold t_replace. rewrite cut_at by exact C. destruct old as [|c old]; [congruence|].
  destruct (starts (B "regex:") ((c :: old) ++ ","%char :: new)) eqn:S.
  - apply starts_spec in S as [r S]. destruct (R r S).
  - rewrite W1. unfold of_wr. rewrite W2, cstr_id; [reflexivity|]. exact (subst_nul _ _ _ _ W3 V N).
Qed.

Lemma run_remove L o v :
  o <> [] -> nul_free v ->
  exists r, apply_chain L [(B "remove", Some o)] v = Val r /\ subst_all o [] v r.
Proof.
  intros O V. destruct (remove_ok o v O V) as (r & R1 & R2). exists r. split; [|exact R2].
  apply run_one; [reflexivity|exact R1].
Qed.

(** ** trim and basename *)
Lemma rtrim_spec s : exists b, s = rtrim s ++ b /\ Forall (fun c => isspace c = true) b /\
  (forall x c, rtrim s = x ++ [c] -> isspace c = false).
Proof.
  induction s as [|c s IH]; [exists []; split; [reflexivity|split; [apply Forall_nil|]]; intros [|? ?] ? [=]|].
  destruct IH as (b & E & F & N). cbn [rtrim]. destruct (rtrim s) as [|d r] eqn:R.
  - cbn [app] in E. subst b. destruct (isspace c) eqn:C.
    + exists (c :: s). split; [reflexivity|]. split; [constructor; assumption|]. intros [|? ?] ? [=].
    + exists s. split; [reflexivity|]. split; [exact F|]. intros [|y x] c0 [= <-]; [exact C|].
      destruct x; discriminate.
  - exists b. split; [rewrite E at 1; reflexivity|]. split; [exact F|].
    intros [|y x] c0 [= <- X]. apply (N x c0 X).
Qed.

Lemma run_trim L v :
  exists a r b, apply_chain L [(B "trim", None)] v = Val r /\ v = a ++ r ++ b /\
    Forall (fun c => isspace c = true) (a ++ b) /\
    (forall c x, r = c :: x -> isspace c = false) /\ (forall x c, r = x ++ [c] -> isspace c = false).
Proof.
  destruct (span isspace v) as [lead s] eqn:E. pose proof (span_all _ _ _ _ E) as A. assert (S : forall c x, s = c :: x -> isspace c = false)
    by (intros c x ->; exact (span_stop _ _ _ _ E)).
  apply span_app in E.
  assert (R : apply_chain L [(B "trim", None)] v = Val (t_trim v)) by (apply run_one; reflexivity).
  assert (F : Forall (fun c => isspace c = true) lead).
  { apply Forall_forall. rewrite forallb_forall in A. exact A. }
  destruct (rtrim_spec s) as (b & B1 & B2 & B3).
  exists lead, (rtrim s), b. rewrite R. split.
  - f_equal. unfold t_trim.
    assert (Z : snd (span isspace v) = s).
    { subst v. clear - A S. induction lead as [|c l IH]; cbn [app].
      - destruct s as [|c s]; [reflexivity|]. cbn [span]. rewrite (S c s eq_refl). reflexivity.
      - cbn [forallb] in A. apply andb_true_iff in A as [A1 A2]. cbn [span]. rewrite A1.
        specialize (IH A2). destruct (span isspace (l ++ s)). exact IH. }
    rewrite Z. destruct s; reflexivity.
  - split; [rewrite <- B1; exact E|]. split; [apply Forall_app; auto|]. split; [|exact B3].
    intros c x X. rewrite X in B1. cbn [app] in B1. eapply S, B1.
Qed.

Lemma basename_spec v : exists p, v = p ++ t_basename v /\ ~ In "/"%char (t_basename v) /\
  (p = [] \/ exists q, p = q ++ ["/"%char]).
Proof.
  induction v as [|c v IH]; [exists []; split; [reflexivity|]; split; [intros []|auto]|].
  destruct IH as (p & E & N & P). cbn [t_basename]. destruct (strchr "/" v) as [i|] eqn:S.
  - exists (c :: p). split; [cbn [app]; rewrite <- E; reflexivity|]. split; [exact N|].
    destruct P as [->|[q ->]]; [|right; exists (c :: q); reflexivity].
    exfalso. cbn [app] in E. rewrite E in S. apply strchr_some in S as (a & b & S & _). apply N.
    rewrite S. apply in_or_app. right. left. reflexivity.
  - assert (Nv : ~ In "/"%char v) by (apply strchr_none; exact S).
    destruct (ceq c "/") eqn:C.
    + apply ceq_eq in C. subst c. exists ["/"%char]. split; [reflexivity|]. split; [exact Nv|].
      right. exists []. reflexivity.
    + exists []. split; [reflexivity|]. split; [|auto].
      intros [->|I]; [rewrite ceq_refl in C; discriminate|exact (Nv I)].
Qed.

Lemma run_basename L v :
  exists p r, apply_chain L [(B "basename", None)] v = Val r /\ v = p ++ r /\ ~ In "/"%char r /\
    (p = [] \/ exists q, p = q ++ ["/"%char]).
Proof.
  destruct (basename_spec v) as (p & H). exists p, (t_basename v).
  split; [apply run_one; reflexivity|exact H].
Qed.

Lemma run_truncate L n s v :
  (Z.of_nat n < long_max)%Z -> Forall (fun c => isspace c = false) s -> length s <= 63 ->
  (length s < n \/ s = []) ->
  exists r, apply_chain L [(B "truncate", Some (dec n ++ ","%char :: s))] v = Val r /\
    length r <= n /\ (length v <= n -> r = v) /\
    (n < length v -> length r = n /\ exists p q, v = p ++ q /\ r = p ++ s).
Proof.
  intros H1 H2 H3 H4. eexists. split; [apply run_one; [reflexivity|]; apply truncate_ok; assumption|].
  split; [apply truncate_length, H4|]. split.
  - intros L1. destruct (Nat.leb_spec (length v) n); [reflexivity|lia].
  - intros L1. destruct (Nat.leb_spec (length v) n); [lia|]. split.
    + rewrite app_length, firstn_length. destruct H4 as [H4| ->]; cbn [length]; lia.
    + exists (firstn (n - length s) v), (skipn (n - length s) v). split; [symmetry; apply firstn_skipn|reflexivity].
Qed.

Lemma run_substring L a b v :
  (Z.of_nat a <= long_max)%Z -> (Z.of_nat b <= long_max)%Z ->
  apply_chain L [(B "substring", Some (dec a ++ ","%char :: dec b))] v = Val (firstn (b - a) (skipn a v)).
Proof. intros. apply run_one; [reflexivity|]. apply substring_ok; assumption. Qed.

Lemma run_substring_open L a v :
  (Z.of_nat a <= long_max)%Z -> a < length v ->
  apply_chain L [(B "substring", Some (dec a))] v = Val (firstn (length v - 1 - a) (skipn a v)).
Proof. intros. apply run_one; [reflexivity|]. apply substring_open; assumption. Qed.

Lemma run_pad L n c v :
  (Z.of_nat n < long_max)%Z ->
  apply_chain L [(B "pad", Some (dec n ++ [","%char; c]))] v = Val (repeat c (n - length v) ++ v).
Proof. intros. apply run_one; [reflexivity|]. apply pad_ok; assumption. Qed.
