From Verif Require Import Base BaseL M_Encode S_Encode.

Lemma lor_shift_add a b n :
  (b < 2 ^ n)%N -> N.lor (N.shiftl a n) b = (a * 2 ^ n + b)%N.
Proof.
  intros H. rewrite <- N.shiftl_mul_pow2.
  assert (E : N.land (N.shiftl a n) b = 0%N).
  { apply N.bits_inj_0. intros k. rewrite N.land_spec.
    destruct (N.lt_ge_cases k n) as [L|L].
    - rewrite N.shiftl_spec_low by assumption. reflexivity.
    - assert (N.testbit b k = false) as ->; [|apply andb_false_r].
      destruct (N.eq_0_gt_0_cases b) as [->|P]; [apply N.bits_0|].
      apply N.bits_above_log2.
      assert (N.log2 b < n)%N by (apply N.log2_lt_pow2; assumption). lia. }
  rewrite N.add_nocarry_lxor by assumption.
  rewrite N.lxor_lor by assumption. reflexivity.
Qed.

Lemma combined_arith a b c :
  (b < 256)%N -> (c < 256)%N ->
  N.lor (N.lor (N.shiftl a 16) (N.shiftl b 8)) c = (a * 65536 + b * 256 + c)%N.
Proof.
  intros Hb Hc.
  rewrite (lor_shift_add a (N.shiftl b 8) 16).
  2:{ rewrite N.shiftl_mul_pow2. change (2^8)%N with 256%N. change (2^16)%N with 65536%N. lia. }
  replace (a * 2 ^ 16 + N.shiftl b 8)%N with (N.shiftl (a * 256 + b) 8).
  2:{ rewrite !N.shiftl_mul_pow2. change (2^8)%N with 256%N. change (2^16)%N with 65536%N. lia. }
  rewrite lor_shift_add by exact Hc.
  change (2^8)%N with 256%N. lia.
Qed.

Lemma land63 a : N.land a 63 = (a mod 64)%N.
Proof. change 63%N with (N.ones 6). rewrite N.land_ones. reflexivity. Qed.

Lemma small64 (P : N -> Prop) (f : N -> bool) :
  (forall v, f v = true -> P v) ->
  forallb (fun n => f (N.of_nat n)) (seq 0 64) = true ->
  forall v, (v < 64)%N -> P v.
Proof.
  intros HP H v L. apply HP. rewrite forallb_forall in H.
  rewrite <- (N2Nat.id v). apply H. apply in_seq. lia.
Qed.

Lemma b64_value_char v : (v < 64)%N -> b64_value (b64_char v) = Some v.
Proof.
  revert v. apply (small64 (fun v => b64_value (b64_char v) = Some v) (fun v => match b64_value (b64_char v) with
                             | Some w => N.eqb v w | None => false end)).
  - intros w. destruct (b64_value (b64_char w)); [|discriminate].
    intros E; apply N.eqb_eq in E; subst; reflexivity.
  - vm_compute; reflexivity.
Qed.

Lemma b64_char_neq v : (v < 64)%N -> ceq (b64_char v) "=" = false.
Proof.
  revert v. apply (small64 (fun v => ceq (b64_char v) "=" = false) (fun v => negb (ceq (b64_char v) "="))).
  - intros w. destruct (ceq _ _); [discriminate|reflexivity].
  - vm_compute; reflexivity.
Qed.

Lemma code_ascii c : ascii_of_N (code c) = c.
Proof. apply ascii_N_embedding. Qed.

Opaque b64_char.

Lemma decode_group_full i a b c rest :
  3 <= i ->
  b64_decode (b64_group i (code a) (code b) (code c) ++ rest)
  = match b64_decode rest with Some r => Some (a :: b :: c :: r) | None => None end.
Proof.
  intros Hi. unfold b64_group.
  pose proof (code_lt a) as Ha. pose proof (code_lt b) as Hb. pose proof (code_lt c) as Hc.
  rewrite (combined_arith _ _ _ Hb Hc).
  set (m := (code a * 65536 + code b * 256 + code c)%N).
  rewrite !N.shiftr_div_pow2, !land63.
  change (2^18)%N with 262144%N. change (2^12)%N with 4096%N. change (2^6)%N with 64%N.
  assert (E2 : 2 <=? i = true) by (apply Nat.leb_le; lia).
  assert (E3 : 3 <=? i = true) by (apply Nat.leb_le; lia).
  rewrite E2, E3. cbn [app b64_decode].
  rewrite !b64_value_char by (apply N.mod_lt; lia).
  rewrite !b64_char_neq by (apply N.mod_lt; lia).
  destruct (b64_decode rest); [|reflexivity].
  assert ((m / 262144) mod 64 * 4 + (m / 4096) mod 64 / 16 = code a)%N as ->
    by (unfold m; zify; Z.to_euclidean_division_equations; lia).
  assert (((m / 4096) mod 64) mod 16 * 16 + (m / 64) mod 64 / 4 = code b)%N as ->
    by (unfold m; zify; Z.to_euclidean_division_equations; lia).
  assert (((m / 64) mod 64) mod 4 * 64 + m mod 64 = code c)%N as ->
    by (unfold m; zify; Z.to_euclidean_division_equations; lia).
  rewrite !code_ascii. reflexivity.
Qed.

(** A padded final group with one byte. *)
Lemma decode_group_1 a : b64_decode (b64_group 1 (code a) 0 0) = Some [a].
Proof.
  unfold b64_group. pose proof (code_lt a) as Ha.
  rewrite combined_arith by lia.
  set (m := (code a * 65536 + 0 * 256 + 0)%N).
  rewrite !N.shiftr_div_pow2, !land63.
  change (2^18)%N with 262144%N. change (2^12)%N with 4096%N. change (2^6)%N with 64%N.
  change (2 <=? 1) with false. change (3 <=? 1) with false. cbn [b64_decode].
  rewrite !b64_value_char by (apply N.mod_lt; lia).
  change (ceq "=" "=") with true. cbn iota.
  assert ((m / 262144) mod 64 * 4 + (m / 4096) mod 64 / 16 = code a)%N as ->
    by (unfold m; zify; Z.to_euclidean_division_equations; lia).
  rewrite code_ascii. reflexivity.
Qed.

Lemma decode_group_2 a b :
  b64_decode (b64_group 2 (code a) (code b) 0) = Some [a; b].
Proof.
  unfold b64_group. pose proof (code_lt a) as Ha. pose proof (code_lt b) as Hb.
  rewrite combined_arith by lia.
  set (m := (code a * 65536 + code b * 256 + 0)%N).
  rewrite !N.shiftr_div_pow2, !land63.
  change (2^18)%N with 262144%N. change (2^12)%N with 4096%N. change (2^6)%N with 64%N.
  change (2 <=? 2) with true. change (3 <=? 2) with false. cbn [b64_decode].
  rewrite !b64_value_char by (apply N.mod_lt; lia).
  rewrite !b64_char_neq by (apply N.mod_lt; lia).
  change (ceq "=" "=") with true. cbn iota.
  assert ((m / 262144) mod 64 * 4 + (m / 4096) mod 64 / 16 = code a)%N as ->
    by (unfold m; zify; Z.to_euclidean_division_equations; lia).
  assert (((m / 4096) mod 64) mod 16 * 16 + (m / 64) mod 64 / 4 = code b)%N as ->
    by (unfold m; zify; Z.to_euclidean_division_equations; lia).
  rewrite !code_ascii. reflexivity.
Qed.

(** Induction three bytes at a time. *)
Lemma list3_ind (P : str -> Prop) :
  P [] -> (forall a, P [a]) -> (forall a b, P [a; b]) ->
  (forall a b c l, P l -> P (a :: b :: c :: l)) -> forall l, P l.
Proof.
  intros H0 H1 H2 H3 l.
  assert (forall n l, length l <= n -> P l) as H; [|eapply H; reflexivity].
  induction n as [|n IH]; intros [|a [|b [|c l']]] L; auto; simpl in L.
  - lia.
  - apply H3, IH. lia.
Qed.

Definition zeros (n : nat) : str := repeat NUL n.

(** What the produced text decodes to, for a loop entered with [i >= 2]. *)
Definition tail_pad (n : nat) : nat := (3 - n mod 3) mod 3.

Lemma tail_pad_step n : tail_pad (S (S (S n))) = tail_pad n.
Proof.
  unfold tail_pad. replace (S (S (S n))) with (n + 1 * 3) by lia.
  rewrite Nat.mod_add by lia. reflexivity.
Qed.

Lemma decode_loop_late data : forall i,
  3 <= i -> b64_decode (b64_loop i data) = Some (data ++ zeros (tail_pad (length data))).
Proof.
  induction data as [|a|a b|a b c l IH] using list3_ind; intros i Hi.
  - reflexivity.
  - cbn [b64_loop]. rewrite <- (app_nil_r (b64_group _ _ _ _)).
    change 0%N with (code NUL). rewrite decode_group_full by lia. reflexivity.
  - cbn [b64_loop]. rewrite <- (app_nil_r (b64_group _ _ _ _)).
    change 0%N with (code NUL). rewrite decode_group_full by lia. reflexivity.
  - cbn [b64_loop]. rewrite decode_group_full by lia. rewrite IH by lia.
    cbn [length]. rewrite tail_pad_step. reflexivity.
Qed.

Definition extra (n : nat) : nat := if n <? 3 then 0 else tail_pad n.

Lemma decode_encode data : data <> [] ->
  exists e, base64_encode data = Some e /\
  b64_decode e = Some (data ++ zeros (extra (length data))).
Proof.
  intros H. destruct data as [|a [|b [|c l]]]; [congruence| | |];
    (eexists; split; [reflexivity|]); cbn [b64_loop].
  - apply decode_group_1.
  - apply decode_group_2.
  - rewrite decode_group_full by lia. rewrite decode_loop_late by lia.
    unfold extra. cbn [length]. rewrite tail_pad_step. reflexivity.
Qed.

Lemma roundtrip_ok data : data <> [] ->
  (length data < 3 \/ length data mod 3 = 0) ->
  exists e, base64_encode data = Some e /\ b64_decode e = Some data.
Proof.
  intros H G. destruct (decode_encode data H) as (e & E & D).
  exists e; split; [assumption|]. rewrite D. f_equal.
  assert (extra (length data) = 0) as ->.
  { unfold extra, tail_pad. destruct (Nat.ltb_spec (length data) 3); [reflexivity|].
    destruct G as [G|G]; [lia|]. rewrite G. reflexivity. }
  apply app_nil_r.
Qed.

Lemma roundtrip_bad data :
  3 <= length data -> length data mod 3 <> 0 ->
  exists e k, base64_encode data = Some e /\ 0 < k /\
    b64_decode e = Some (data ++ repeat NUL k).
Proof.
  intros L M. destruct (decode_encode data) as (e & E & D).
  { destruct data; [simpl in L; lia|discriminate]. }
  exists e, (extra (length data)). split; [assumption|]. split; [|exact D].
  unfold extra, tail_pad. destruct (Nat.ltb_spec (length data) 3); [lia|].
  pose proof (Nat.mod_upper_bound (length data) 3).
  rewrite Nat.mod_small by lia. lia.
Qed.

Lemma b64_group_length i a b c : length (b64_group i a b c) = 4.
Proof. reflexivity. Qed.

Lemma b64_loop_length data : forall i, length (b64_loop i data) = (length data + 2) / 3 * 4.
Proof.
  induction data as [|a|a b|a b c l IH] using list3_ind; intros i; try reflexivity.
  cbn [b64_loop length]. rewrite app_length, b64_group_length, IH.
  replace (S (S (S (length l))) + 2) with (length l + 2 + 1 * 3) by lia.
  rewrite Nat.div_add by lia. lia.
Qed.

Definition b64_alphabet (c : ascii) : bool := isalnum c || ceq c "+" || ceq c "/" || ceq c "=".

Transparent b64_char.
Lemma b64_char_alpha v : (v < 64)%N -> b64_alphabet (b64_char v) = true.
Proof.
  revert v. apply (small64 (fun v => b64_alphabet (b64_char v) = true) (fun v => b64_alphabet (b64_char v))); [auto|].
  vm_compute; reflexivity.
Qed.
Opaque b64_char.

Lemma b64_group_alpha i a b c : forallb b64_alphabet (b64_group i a b c) = true.
Proof.
  unfold b64_group. cbn [forallb]. rewrite !land63.
  rewrite !b64_char_alpha by (apply N.mod_lt; lia).
  destruct (2 <=? i), (3 <=? i);
    rewrite ?b64_char_alpha by (apply N.mod_lt; lia); reflexivity.
Qed.

Lemma b64_loop_alpha data : forall i, forallb b64_alphabet (b64_loop i data) = true.
Proof.
  induction data as [|a|a b|a b c l IH] using list3_ind; intros i; cbn [b64_loop];
    try apply b64_group_alpha; [reflexivity|].
  rewrite forallb_app, b64_group_alpha, IH. reflexivity.
Qed.

Lemma encode_shape data e :
  base64_encode data = Some e ->
  length e = (length data + 2) / 3 * 4 /\
  length e + 1 <= b64_capacity (length data) /\
  (forall c, In c e -> b64_alphabet c = true) /\
  exists k, b64_decode e = Some (data ++ repeat NUL k).
Proof.
  intros E. assert (N : data <> []) by (destruct data; [discriminate|discriminate]).
  destruct (decode_encode data N) as (e' & E' & D).
  rewrite E in E'; injection E' as <-.
  assert (e = b64_loop 0 data) as ->.
  { destruct data; [congruence|]. unfold base64_encode in E. apply Some_inj in E. symmetry; exact E. }
  rewrite b64_loop_length. split; [reflexivity|].
  split; [unfold b64_capacity; lia|]. split.
  - apply forallb_forall, b64_loop_alpha.
  - eexists; exact D.
Qed.

(** Hex entities. *)
Lemma hex_entity_length c : length (hex_entity c) = 6.
Proof. reflexivity. Qed.

Lemma hex_loop_ok cap text : forall out,
  length out + 6 * length text < cap ->
  hex_loop cap out text = Some (out ++ flat_map hex_entity text).
Proof.
  induction text as [|c text IH]; intros out H.
  - simpl. rewrite app_nil_r. reflexivity.
  - cbn [hex_loop flat_map]. rewrite hex_entity_length. cbn [length] in H.
    destruct (Nat.ltb_spec 6 (cap - length out)); [|lia].
    rewrite IH.
    + rewrite app_assoc. reflexivity.
    + rewrite app_length, hex_entity_length. lia.
Qed.

Lemma encode_hex_ok text :
  encode_hex_entities text =
  match text with [] => None | _ => Some (flat_map hex_entity text) end.
Proof.
  destruct text as [|c text]; [reflexivity|].
  unfold encode_hex_entities. rewrite hex_loop_ok; [reflexivity|].
  cbn [length]. lia.
Qed.

Lemma hex_resolve_one c rest :
  resolve_refs (hex_entity c ++ rest)
  = match resolve_refs rest with Some r => Some (c :: r) | None => None end.
Proof.
  unfold hex_entity, hex2. cbn [B list_ascii_of_string app resolve_refs].
  assert (H : forall c, match hex_value (hex_upper (code c / 16)),
                       hex_value (hex_upper (code c mod 16)) with
                 | Some x, Some y => ceq (ascii_of_N (x * 16 + y)) c
                 | _, _ => false end = true).
  { apply byte_forall. vm_compute; reflexivity. }
  specialize (H c).
  destruct (hex_value (hex_upper (code c / 16))) as [x|]; [|discriminate].
  destruct (hex_value (hex_upper (code c mod 16))) as [y|]; [|discriminate].
  destruct (resolve_refs rest); [|reflexivity].
  apply ceq_eq in H. rewrite H. reflexivity.
Qed.

Lemma hex_resolve text : resolve_refs (flat_map hex_entity text) = Some text.
Proof.
  induction text as [|c text IH]; [reflexivity|].
  cbn [flat_map]. rewrite hex_resolve_one, IH. reflexivity.
Qed.

Lemma encode_hex_round text : text <> [] ->
  exists e, encode_hex_entities text = Some e /\ resolve_refs e = Some text /\
    length e + 1 <= length text * 6 + 1.
Proof.
  intros H. rewrite encode_hex_ok. destruct text as [|c text]; [congruence|].
  eexists; split; [reflexivity|]. split; [apply hex_resolve|].
  assert (forall t, length (flat_map hex_entity t) = 6 * length t) as L.
  { induction t as [|x t IH]; [reflexivity|]. cbn [flat_map length].
    rewrite app_length, IH, hex_entity_length. lia. }
  rewrite L. lia.
Qed.

Lemma roundtrip_iff data : data <> [] ->
  (length data < 3 \/ length data mod 3 = 0 <->
   exists e, base64_encode data = Some e /\ b64_decode e = Some data).
Proof.
  intros H. split; [apply roundtrip_ok; assumption|].
  intros (e & E & D).
  destruct (Nat.lt_ge_cases (length data) 3) as [L|L]; [left; assumption|].
  destruct (Nat.eq_dec (length data mod 3) 0) as [M|M]; [right; assumption|].
  destruct (roundtrip_bad data L M) as (e' & k & E' & K & D').
  rewrite E in E'; injection E' as <-. rewrite D in D'. injection D' as D'.
  apply (f_equal (@length ascii)) in D'. rewrite app_length, repeat_length in D'. lia.
Qed.

Lemma roundtrip_refuted :
  exists data e, base64_encode data = Some e /\ b64_decode e <> Some data.
Proof.
  exists (B "Apex"), (B "QXBleAAA"). split; [vm_compute; reflexivity|].
  vm_compute. discriminate.
Qed.
