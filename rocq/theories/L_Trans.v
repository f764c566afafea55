(** Proofs about transforms. *)
From Verif Require Import Base BaseL Dec M_Encode M_Meta M_Trans S_Trans L_Meta L_MetaParse.

(** ** Unchecked writers: what was stored and whether it fitted *)
Definition fits (w : wr) : Prop := w_oob w = false /\ length (w_out w) <= w_cap w.

Lemma store_fits s w :
  fits w -> length (w_out w) + length s <= w_cap w -> fits (w_store s w).
Proof.
  intros [H1 H2] L. unfold fits, w_store. cbn [w_oob w_out w_cap]. rewrite app_length. split; [|lia].
  rewrite H1. destruct s; [reflexivity|]. cbn [orb]. apply Nat.ltb_ge. exact L.
Qed.
Lemma term_fits w : fits w -> length (w_out w) < w_cap w -> fits (w_term w).
Proof.
  intros [H1 H2] L. unfold fits, w_term. cbn [w_oob w_out w_cap]. split; [|lia].
  rewrite H1. cbn [orb]. apply Nat.leb_gt. exact L.
Qed.
Lemma new_fits n r : fits (w_new n r).
Proof. split; cbn; [reflexivity|lia]. Qed.

(** ** URL encoding *)
Lemma url_byte_length c : length (url_byte c) <= 3.
Proof. unfold url_byte. destruct (url_plain c); cbn; lia. Qed.

Lemma urlencode_loop_ok v : forall w,
  fits w -> length (w_out w) + 3 * length v < w_cap w ->
  fits (urlencode_loop w v) /\ w_out (urlencode_loop w v) = w_out w ++ flat_map url_byte v.
Proof.
  induction v as [|c v IH]; intros w F L.
  - cbn [urlencode_loop flat_map]. rewrite app_nil_r. split; [apply term_fits; [exact F|cbn in L; lia]|reflexivity].
  - cbn [urlencode_loop flat_map length] in *. pose proof (url_byte_length c) as U.
    assert (F1 : fits (w_term (w_store (url_byte c) w))).
    { apply term_fits; [apply store_fits; [exact F|lia]|]. cbn [w_store w_out w_cap].
      rewrite app_length. lia. }
    destruct (IH _ F1) as [H1 H2].
    + cbn [w_term w_store w_out w_cap]. rewrite app_length. lia.
    + split; [exact H1|]. rewrite H2. cbn [w_term w_store w_out]. rewrite <- app_assoc. reflexivity.
Qed.

Lemma urlencode_ok v : w_oob (t_urlencode v) = false /\ w_out (t_urlencode v) = flat_map url_byte v.
Proof.
  unfold t_urlencode. destruct (urlencode_loop_ok v (w_new (length v * 3 + 1) 0)) as [[H _] H2].
  - apply new_fits.
  - cbn [w_new w_out w_cap length]. lia.
  - split; [exact H|exact H2].
Qed.

Lemma url_plain_spec c : url_plain c = true -> unreserved c.
Proof.
  unfold url_plain, isalnum, isalpha, isupper, islower, isdigit, between, unreserved.
  rewrite !orb_true_iff, !andb_true_iff, !N.leb_le, !ceq_eq. intros H. cbn [B list_ascii_of_string In].
  intuition auto.
Qed.

Lemma HEX_upper n : (n < 16)%N -> HEX (hex_upper n).
Proof.
  intros L. assert (forallb (fun k => let c := hex_upper (N.of_nat k) in between 48 57 c || between 65 70 c) (seq 0 16) = true) as H
    by (vm_compute; reflexivity).
  rewrite forallb_forall in H. specialize (H (N.to_nat n)).
  rewrite N2Nat.id in H. cbv zeta in H. unfold HEX, between in *.
  assert (In (N.to_nat n) (seq 0 16)) as I by (apply in_seq; lia). specialize (H I). lia.
Qed.

Lemma url_text_ok v : url_text (flat_map url_byte v).
Proof.
  induction v as [|c v IH]; [constructor|]. cbn [flat_map]. unfold url_byte at 1.
  destruct (url_plain c) eqn:E; cbn [app].
  - constructor; [apply url_plain_spec, E|exact IH].
  - unfold hex2. cbn [app]. pose proof (code_lt c). apply ut_hex; [| |exact IH]; apply HEX_upper.
    + apply N.div_lt_upper_bound; lia.
    + apply N.mod_lt. lia.
Qed.

Lemma hex_digits c :
  isxdigit (hex_upper (code c / 16)) = true /\ isxdigit (hex_upper (code c mod 16)) = true /\
  ascii_of_N (16 * xvalue (hex_upper (code c / 16)) + xvalue (hex_upper (code c mod 16))) = c.
Proof.
  assert (forall c, (isxdigit (hex_upper (code c / 16)) && isxdigit (hex_upper (code c mod 16)) &&
    ceq (ascii_of_N (16 * xvalue (hex_upper (code c / 16)) + xvalue (hex_upper (code c mod 16)))) c)%bool = true) as H
    by (apply byte_forall; vm_compute; reflexivity).
  specialize (H c). rewrite !andb_true_iff, ceq_eq in H. tauto.
Qed.

Lemma url_plain_other c : url_plain c = true -> ceq c "%" = false /\ ceq c "+" = false.
Proof.
  assert (forall c, implb (url_plain c) (negb (ceq c "%") && negb (ceq c "+")) = true) as H
    by (apply byte_forall; vm_compute; reflexivity).
  specialize (H c). intros E. rewrite E in H. cbn [implb] in H.
  rewrite andb_true_iff, !negb_true_iff in H. exact H.
Qed.

Lemma urldecode_encoded v : forall w,
  fits w -> length (w_out w) + length (flat_map url_byte v) < w_cap w ->
  fits (urldecode_loop w (flat_map url_byte v)) /\
  w_out (urldecode_loop w (flat_map url_byte v)) = w_out w ++ v.
Proof.
  induction v as [|c v IH]; intros w F L.
  - cbn [flat_map urldecode_loop]. rewrite app_nil_r. split; [apply term_fits; [exact F|cbn in L; lia]|reflexivity].
  - cbn [flat_map] in *. rewrite app_length in L. unfold url_byte at 1 3. unfold url_byte at 1 in L.
    assert (S1 : fits (w_store [c] w)).
    { apply store_fits; [exact F|]. destruct (url_plain c); cbn [length hex2] in *; lia. }
    assert (S2 : length (w_out (w_store [c] w)) + length (flat_map url_byte v) < w_cap (w_store [c] w)).
    { cbn [w_store w_out w_cap]. rewrite app_length. destruct (url_plain c); cbn [length hex2] in *; lia. }
    destruct (IH _ S1 S2) as [H1 H2].
    assert (E : w_out (w_store [c] w) ++ v = w_out w ++ c :: v).
    { cbn [w_store w_out]. rewrite <- app_assoc. reflexivity. }
    rewrite E in H2. destruct (url_plain c) eqn:P.
    + destruct (url_plain_other c P) as [P1 P2]. cbn [app urldecode_loop]. rewrite P1, P2. auto.
    + unfold hex2. cbn [app urldecode_loop]. rewrite ceq_refl.
      destruct (hex_digits c) as (D1 & D2 & D3). rewrite D1, D2, D3. cbn [andb]. auto.
Qed.

Lemma cstr_id s : nul_free s -> cstr s = s.
Proof.
  unfold cstr. intros N. induction s as [|c s IH]; [reflexivity|].
  apply nul_free_cons in N as [N1 N2]. cbn [span].
  rewrite (proj2 (ceq_neq c NUL) N1). cbn [negb]. destruct (span _ s) as [a b] eqn:E.
  cbn [fst] in *. f_equal. apply IH, N2.
Qed.

Lemma url_round_trip v :
  nul_free v -> exists e, of_wr (Some (t_urlencode v)) = Val e /\ url_text e /\
    of_wr (Some (t_urldecode e)) = Val v.
Proof.
  intros N. destruct (urlencode_ok v) as [H1 H2].
  assert (NU : nul_free (flat_map url_byte v)).
  { pose proof (url_text_ok v) as U. revert U. generalize (flat_map url_byte v). intros s U I. induction U as [|c s U1 U IH|a b s A1 B1 U IH].
    - destruct I.
    - destruct I as [->|I]; [|auto]. unfold unreserved in U1. cbn in U1.
      intuition (try lia; try discriminate).
    - unfold HEX in A1, B1. destruct I as [I|[->|[->|I]]]; [discriminate| | |auto]; cbn in *; lia. }
  exists (flat_map url_byte v). split.
  - unfold of_wr. rewrite H1, H2, cstr_id by exact NU. reflexivity.
  - split; [apply url_text_ok|]. unfold of_wr, t_urldecode.
    destruct (urldecode_encoded v (w_new (length (flat_map url_byte v) + 1) 0)) as [[D1 _] D2].
    + apply new_fits.
    + cbn [w_new w_out w_cap length]. lia.
    + rewrite D1, D2. cbn [w_new w_out app]. rewrite cstr_id by exact N. reflexivity.
Qed.

(** Decoding stays in its block for every text. *)
Lemma urldecode_fits n : forall v w, length v <= n ->
  fits w -> length (w_out w) + length v < w_cap w -> fits (urldecode_loop w v).
Proof.
  induction n as [|n IH]; intros v w Ln F L.
  - destruct v; [|cbn in Ln; lia]. apply term_fits; [exact F|cbn in L; lia].
  - destruct v as [|c v]; [apply term_fits; [exact F|cbn in L; lia]|].
    cbn [urldecode_loop length] in *.
    assert (P : fits (urldecode_loop (w_store [if ceq c "+" then SP else c] w) v)).
    { apply IH; [lia|apply store_fits; [exact F|cbn; lia]|].
      cbn [w_store w_out w_cap]. rewrite app_length. cbn [length]. lia. }
    destruct (ceq c "%"); [|exact P]. destruct v as [|a [|b v]]; try exact P.
    destruct (isxdigit a && isxdigit b)%bool; [|exact P].
    cbn [length] in *. apply IH; [lia|apply store_fits; [exact F|cbn; lia]|].
    cbn [w_store w_out w_cap]. rewrite app_length. cbn [length]. lia.
Qed.

(** ** HTML escape *)
Lemma escape_byte_length c : length (escape_byte c) <= 6.
Proof.
  assert (forall c, length (escape_byte c) <=? 6 = true) as H by (apply byte_forall; vm_compute; reflexivity).
  apply Nat.leb_le, H.
Qed.

Lemma escape_loop_ok v : forall w,
  fits w -> length (w_out w) + 6 * length v < w_cap w ->
  fits (escape_loop w v) /\ w_out (escape_loop w v) = w_out w ++ flat_map escape_byte v.
Proof.
  induction v as [|c v IH]; intros w F L.
  - cbn [escape_loop flat_map]. rewrite app_nil_r. split; [apply term_fits; [exact F|cbn in L; lia]|reflexivity].
  - cbn [escape_loop flat_map length] in *. pose proof (escape_byte_length c) as U.
    assert (F1 : fits (w_term (w_store (escape_byte c) w))).
    { apply term_fits; [apply store_fits; [exact F|lia]|]. cbn [w_store w_out w_cap].
      rewrite app_length. lia. }
    destruct (IH _ F1) as [H1 H2].
    + cbn [w_term w_store w_out w_cap]. rewrite app_length. lia.
    + split; [exact H1|]. rewrite H2. cbn [w_term w_store w_out]. rewrite <- app_assoc. reflexivity.
Qed.

Lemma escape_shape c :
  (exists d, escape_byte c = [d] /\ d = c /\ ~ In c (B "&<>""'") /\ (code c < 128)%N) \/
  (c = "&"%char /\ escape_byte c = B "&amp;") \/ (c = "<"%char /\ escape_byte c = B "&lt;") \/
  (c = ">"%char /\ escape_byte c = B "&gt;") \/ (c = DQ /\ escape_byte c = B "&quot;") \/
  escape_byte c = B "&#" ++ dec (N.to_nat (code c)) ++ B ";".
Proof.
  unfold escape_byte.
  destruct (ceq c "&") eqn:E1; [apply ceq_eq in E1; auto|]. apply ceq_neq in E1.
  destruct (ceq c "<") eqn:E2; [apply ceq_eq in E2; auto|]. apply ceq_neq in E2.
  destruct (ceq c ">") eqn:E3; [apply ceq_eq in E3; auto 6|]. apply ceq_neq in E3.
  destruct (ceq c DQ) eqn:E4; [apply ceq_eq in E4; auto 7|]. apply ceq_neq in E4.
  destruct (ceq c SQ) eqn:E5.
  { apply ceq_eq in E5. subst c. do 5 right. vm_compute. reflexivity. }
  apply ceq_neq in E5.
  destruct (between 32 126 c) eqn:E6; [|do 5 right; reflexivity].
  left. exists c. repeat split; auto.
  - unfold DQ, SQ in *. cbn [B list_ascii_of_string In]. intros I. intuition congruence.
  - unfold between in E6. lia.
Qed.

Lemma escape_shows v : shows (flat_map escape_byte v) (map code v).
Proof.
  induction v as [|c v IH]; [constructor|]. cbn [flat_map map].
  destruct (escape_shape c) as [(d & -> & -> & N & L)|[[-> ->]|[[-> ->]|[[-> ->]|[[-> ->]|E]]]]].
  - apply sh_plain; assumption.
  - apply sh_amp, IH.
  - apply sh_lt, IH.
  - apply sh_gt, IH.
  - apply sh_quot, IH.
  - rewrite E, <- !app_assoc. replace (code c) with (N.of_nat (N.to_nat (code c))) at 2 by apply N2Nat.id.
    apply sh_num, IH.
Qed.

Lemma escape_no_markup v c : In c (flat_map escape_byte v) -> ~ In c (B "<>""'").
Proof.
  intros I. apply in_flat_map in I as (d & _ & I).
  assert (forall d, forallb (fun c => negb (existsb (ceq c) (B "<>""'"))) (escape_byte d) = true) as H
    by (apply byte_forall; vm_compute; reflexivity).
  specialize (H d). rewrite forallb_forall in H. specialize (H c I).
  apply negb_true_iff in H. intros J. assert (existsb (ceq c) (B "<>""'") = true) as X.
  { apply existsb_exists. exists c. split; [exact J|apply ceq_refl]. }
  congruence.
Qed.

Lemma escape_ok v :
  w_oob (t_escape v) = false /\ shows (w_out (t_escape v)) (map code v) /\
  forall c, In c (w_out (t_escape v)) -> ~ In c (B "<>""'").
Proof.
  unfold t_escape. destruct (escape_loop_ok v (w_new (length v * 6 + 1) 0)) as [[H _] H2].
  - apply new_fits.
  - cbn [w_new w_out w_cap length]. lia.
  - split; [exact H|]. rewrite H2. cbn [w_new w_out app]. split; [apply escape_shows|].
    apply escape_no_markup.
Qed.

(** ** Slugs *)
Lemma slug_byte_lower c : isalnum c = true -> slug_byte (tolower c) /\ tolower c <> "-"%char.
Proof.
  intros H. unfold slug_byte. rewrite code_tolower.
  unfold isalnum, isalpha, islower, isdigit, between in H.
  destruct (isupper c) eqn:U; unfold isupper, between in U, H.
  - split; [left; lia|]. intros E. apply (f_equal code) in E. rewrite code_tolower in E.
    unfold isupper, between in E. rewrite U in E. cbn in E. lia.
  - split; [cbn in H; lia|]. unfold tolower. intros E. unfold isupper, between in E. rewrite U in E.
    subst c. cbn in H. discriminate.
Qed.

(** Written so far: clean except for a possible hyphen at the end. *)
Definition slug_inv (prev : bool) (s : str) : Prop :=
  Forall slug_byte s /\ (forall a b, s <> a ++ B "--" ++ b) /\
  (prev = false -> forall a, s <> a ++ B "-").

Lemma no_dashes_snoc s c :
  (forall a b, s <> a ++ B "--" ++ b) -> (c <> "-"%char \/ forall a, s <> a ++ B "-") ->
  forall a b, s ++ [c] <> a ++ B "--" ++ b.
Proof.
  intros H D a b E. destruct (exists_last (l := "-"%char :: b)) as (b1 & d & Eb); [discriminate|].
  assert (Ex : a ++ B "--" ++ b = (a ++ "-"%char :: b1) ++ [d]).
  { change (B "--" ++ b) with ("-"%char :: ("-"%char :: b)). rewrite Eb.
    change ("-"%char :: b1 ++ [d]) with (("-"%char :: b1) ++ [d]). apply app_assoc. }
  rewrite Ex in E. apply app_inj_tail in E as [E1 E2]. subst d s.
  destruct b1 as [|x b1].
  - injection Eb as <- ->. destruct D as [D|D]; [apply D; reflexivity|]. exact (D a eq_refl).
  - injection Eb as <- Eb. apply (H a b1). reflexivity.
Qed.

Lemma slug_loop_ok v : forall prev w,
  fits w -> length (w_out w) + 2 * length v < w_cap w -> slug_inv prev (w_out w) ->
  let r := slug_loop prev w v in
  fits r /\ w_cap r = w_cap w /\ length (w_out r) < w_cap r /\ slug_inv true (w_out r).
Proof.
  induction v as [|c v IH]; intros prev w F L I.
  - cbn. split; [exact F|]. split; [reflexivity|]. split; [cbn in L; lia|].
    destruct I as (I1 & I2 & _). split; [exact I1|]. split; [exact I2|discriminate].
  - cbn [slug_loop length] in *. destruct I as (I1 & I2 & I3). destruct (isalnum c) eqn:A.
    + destruct (slug_byte_lower c A) as [B1 B2].
      apply (IH false (w_store [tolower c] w)).
      * apply store_fits; [exact F|cbn; lia].
      * cbn [w_store w_out w_cap]. rewrite app_length. cbn [length]. lia.
      * cbn [w_store w_out]. split; [apply Forall_app; split; [exact I1|constructor; [exact B1|constructor]]|].
        split; [apply no_dashes_snoc; auto|]. intros _ a E. apply app_inj_tail in E as [_ E]. auto.
    + destruct (isspace c || ceq c "_")%bool.
      * destruct prev.
        -- apply IH; [exact F|lia|]. split; [exact I1|]. split; [exact I2|exact I3].
        -- apply (IH true (w_store ["-"%char] w)).
           ++ apply store_fits; [exact F|cbn; lia].
           ++ cbn [w_store w_out w_cap]. rewrite app_length. cbn [length]. lia.
           ++ cbn [w_store w_out]. split.
              ** apply Forall_app. split; [exact I1|]. constructor; [right; right; reflexivity|constructor].
              ** split; [apply no_dashes_snoc; auto|discriminate].
      * apply IH; [exact F|lia|]. split; [exact I1|]. split; [exact I2|exact I3].
Qed.

Lemma drop_hyphens_app r : exists k, r = repeat "-"%char k ++ drop_hyphens r.
Proof.
  induction r as [|c r [k IH]]; [exists 0; reflexivity|]. cbn [drop_hyphens].
  destruct (ceq c "-") eqn:E; [|exists 0; reflexivity]. apply ceq_eq in E. subst c.
  exists (S k). cbn [repeat app]. f_equal. exact IH.
Qed.
Lemma drop_hyphens_head r c s : drop_hyphens r = c :: s -> c <> "-"%char.
Proof.
  induction r as [|d r IH]; [discriminate|]. cbn [drop_hyphens].
  destruct (ceq d "-") eqn:E; [exact IH|]. intros [= <- _]. apply ceq_neq, E.
Qed.

Lemma slug_ok v : w_oob (t_slug v) = false /\ clean_slug (w_out (t_slug v)).
Proof.
  unfold t_slug. set (w := slug_loop false (w_new (length v * 2 + 1) 0) v).
  destruct (slug_loop_ok v false (w_new (length v * 2 + 1) 0)) as ([F1 F2] & C & L & (I1 & I2 & _)).
  - apply new_fits.
  - cbn [w_new w_out w_cap length]. lia.
  - split; [constructor|]. split; intros; intros E; destruct a; discriminate.
  - fold w in F1, F2, C, L, I1, I2. cbv zeta.
    destruct (drop_hyphens_app (rev (w_out w))) as [k K].
    set (d := drop_hyphens (rev (w_out w))) in *.
    assert (E : w_out w = rev d ++ rev (repeat "-"%char k)).
    { rewrite <- rev_app_distr, <- K, rev_involutive. reflexivity. }
    assert (Le : length (rev d) <= length (w_out w)) by (rewrite E at 1; rewrite app_length; lia).
    split.
    + cbn [w_term w_oob w_cap w_out]. rewrite F1. cbn [orb]. apply Nat.leb_gt. lia.
    + cbn [w_term w_out]. split; [|split].
      * rewrite E in I1. apply Forall_app in I1 as [I1 _]. exact I1.
      * intros a b X. apply (I2 a (b ++ rev (repeat "-"%char k))). rewrite E, X, <- !app_assoc. reflexivity.
      * intros a X. apply (f_equal (@rev ascii)) in X. rewrite rev_involutive, rev_app_distr in X.
        cbn in X. apply drop_hyphens_head in X. congruence.
Qed.

(** ** Literal replacement *)
Lemma strstr_split lit s i :
  strstr lit s = Some i ->
  s = firstn i s ++ lit ++ skipn (i + length lit) s /\
  first_at lit (firstn i s) (skipn (i + length lit) s) /\ length (firstn i s) = i.
Proof.
  intros H. apply strstr_some in H as (a & b & E & L & F). subst i.
  assert (E1 : firstn (length a) s = a).
  { rewrite E, firstn_app, Nat.sub_diag, firstn_all. apply app_nil_r. }
  assert (E2 : skipn (length a + length lit) s = b).
  { rewrite E, app_assoc. rewrite <- app_length, skipn_app, skipn_all, Nat.sub_diag. reflexivity. }
  rewrite E1, E2. split; [exact E|]. split; [|reflexivity].
  intros a' b' X. apply (F a' b'). rewrite E. exact X.
Qed.

Lemma count_total fuel : forall old p, old <> [] -> length p < fuel -> exists n, count_old fuel old p = Some n.
Proof.
  induction fuel as [|fuel IH]; intros old p N L; [lia|]. cbn [count_old].
  destruct (strstr old p) as [i|] eqn:E; [|eauto].
  apply strstr_split in E as (E & _ & Li). 
  destruct (IH old (skipn (i + length old) p) N) as [n ->]; [|cbn; eauto].
  apply (f_equal (@length ascii)) in E. rewrite !app_length in E. destruct old; [congruence|].
  cbn [length] in *. lia.
Qed.

Lemma replace_total fuel : forall old new p n w,
  old <> [] -> length p < fuel -> count_old fuel old p = Some n -> fits w ->
  length (w_out w) + length p + n * (length new - length old) < w_cap w ->
  exists w1 o, replace_loop fuel old new w p = Some w1 /\ fits w1 /\
    w_out w1 = w_out w ++ o /\ subst_all old new p o.
Proof.
  induction fuel as [|fuel IH]; intros old new p n w N L C F Lw; [lia|].
  cbn [count_old replace_loop] in *. destruct (strstr old p) as [i|] eqn:E.
  - pose proof (strstr_split _ _ _ E) as (E1 & E2 & Li).
    destruct (count_old fuel old (skipn (i + length old) p)) as [m|] eqn:Em; [|discriminate].
    injection C as <-. set (a := firstn i p) in *. set (b := skipn (i + length old) p) in *.
    assert (Lp : length p = length a + length old + length b).
    { rewrite E1, !app_length at 1. lia. }
    assert (Lo : 0 < length old) by (destruct old; [congruence|cbn; lia]).
    destruct (IH old new b m (w_store new (w_store a w))) as (w1 & o & R1 & R2 & R3 & R4);
      try assumption.
    + lia.
    + apply store_fits; [apply store_fits; [exact F|nlia]|]. cbn [w_store w_out w_cap].
      rewrite app_length. nlia.
    + cbn [w_store w_out w_cap]. rewrite !app_length. nlia.
    + exists w1, (a ++ new ++ o). split; [exact R1|]. split; [exact R2|]. split.
      * rewrite R3. cbn [w_store w_out]. rewrite <- !app_assoc. reflexivity.
      * rewrite E1. apply sa_one; assumption.
  - injection C as <-. exists (w_term (w_store p w)), p. split; [reflexivity|]. split.
    + apply term_fits; [apply store_fits; [exact F|lia]|]. cbn [w_store w_out w_cap].
      rewrite app_length. lia.
    + split; [reflexivity|]. apply sa_none. apply strstr_none, E.
Qed.

Lemma replace_literal_ok old new v :
  old <> [] ->
  exists w, replace_literal old new v = Some w /\ w_oob w = false /\ subst_all old new v (w_out w).
Proof.
  intros N. unfold replace_literal.
  destruct (count_total (S (length v)) old v N) as [n C]; [lia|]. rewrite C.
  destruct n as [|n].
  - eexists. split; [reflexivity|]. split.
    + assert (F : fits (w_term (w_store v (w_new (length v + 1) 0)))).
      { apply term_fits; [apply store_fits; [apply new_fits|]|]; cbn [w_new w_store w_out w_cap length app]; lia. }
      apply F.
    + cbn [w_term w_store w_out w_new app]. apply sa_none. apply strstr_none.
      cbn [count_old] in C. destruct (strstr old v); [|reflexivity].
      destruct (count_old _ _ _); discriminate.
  - destruct (replace_total (S (length v)) old new v (S n)
                (w_new (length v + S n * (length new - length old) + 1) 0)) as (w1 & o & R1 & R2 & R3 & R4);
      try assumption; try (apply new_fits); try lia.
    + cbn [w_new w_out w_cap length]. lia.
    + exists w1. split; [exact R1|]. split; [apply R2|]. rewrite R3. exact R4.
Qed.

Lemma app_len_inj {A} (a a' x y : list A) :
  length a = length a' -> a ++ x = a' ++ y -> a = a' /\ x = y.
Proof.
  revert a'. induction a as [|c a IH]; intros [|d a'] L E; try discriminate; [auto|].
  injection L as L. injection E as -> E. destruct (IH a' L E) as [-> ->]. auto.
Qed.

Lemma subst_all_fun old new v o1 o2 :
  old <> [] -> subst_all old new v o1 -> subst_all old new v o2 -> o1 = o2.
Proof.
  intros N H. revert o2. induction H as [v H|a b o F H IH]; intros o2 H2.
  - inversion H2 as [|a b o F H3 E]; subst; [reflexivity|]. exfalso. eapply H. reflexivity.
  - inversion H2 as [v H3 E|a' b' o' F' H3 E]; subst.
    + exfalso. eapply H3. reflexivity.
    + assert (La : length a = length a').
      { apply Nat.le_antisymm; [apply (F a' b'); auto|apply (F' a b); auto]. }
      destruct (app_len_inj a a' _ _ La ltac:(symmetry; exact E)) as [<- Eb].
      apply app_inv_head in Eb. subst b'. f_equal. f_equal. apply IH, H3.
Qed.

(** ** Removal *)
Lemma remove_loop_skip lit k : forall w v, k <= length v ->
  remove_loop lit k w v = remove_loop lit 0 w (skipn k v).
Proof.
  induction k as [|k IH]; intros w v L; [reflexivity|].
  destruct v as [|c v]; [cbn in L; lia|]. cbn [remove_loop skipn]. apply IH. cbn in L; lia.
Qed.

Lemma remove_loop_ok lit n : lit <> [] -> forall v w, length v <= n -> fits w ->
  length (w_out w) + length v < w_cap w ->
  exists o, fits (remove_loop lit 0 w v) /\ w_out (remove_loop lit 0 w v) = w_out w ++ o /\
    subst_all lit [] v o.
Proof.
  intros N. induction n as [|n IH]; intros v w Ln F L.
  - destruct v; [|cbn in Ln; lia]. exists []. cbn [remove_loop]. split; [apply term_fits; [exact F|cbn in L; lia]|].
    split; [cbn; rewrite app_nil_r; reflexivity|]. apply sa_none. intros a b E.
    symmetry in E. apply app_eq_nil in E as [_ E]. apply app_eq_nil in E as [E _]. auto.
  - destruct v as [|c v].
    { exists []. cbn [remove_loop]. split; [apply term_fits; [exact F|cbn in L; lia]|].
      split; [cbn; rewrite app_nil_r; reflexivity|]. apply sa_none. intros a b E.
      symmetry in E. apply app_eq_nil in E as [_ E]. apply app_eq_nil in E as [E _]. auto. }
    cbn [remove_loop]. destruct (starts lit (c :: v)) eqn:S.
    + apply starts_spec in S as [r Er]. destruct lit as [|l0 lit]; [congruence|].
      injection Er as -> Er. cbn [length] in *.
      replace (S (length lit) - 1) with (length lit) by lia.
      assert (Lv : length v = length lit + length r) by (rewrite Er, app_length; lia).
      rewrite remove_loop_skip by lia.
      assert (Ev : skipn (length lit) v = r).
      { rewrite Er, skipn_app, skipn_all, Nat.sub_diag. reflexivity. }
      rewrite Ev. destruct (IH r w) as (o & O1 & O2 & O3); [lia|exact F|lia|].
      exists o. split; [exact O1|]. split; [exact O2|].
      change (l0 :: v) with ([] ++ (l0 :: v)). rewrite Er.
      change (l0 :: lit ++ r) with ((l0 :: lit) ++ r).
      change o with ([] ++ [] ++ o). apply sa_one; [|exact O3].
      intros a' b' _. cbn; lia.
    + destruct (IH v (w_store [c] w)) as (o & O1 & O2 & O3).
      * cbn in Ln; lia.
      * apply store_fits; [exact F|cbn in *; lia].
      * cbn [w_store w_out w_cap]. rewrite app_length. cbn [length] in *. lia.
      * exists (c :: o). split; [exact O1|]. split.
        { rewrite O2. cbn [w_store w_out]. rewrite <- app_assoc. reflexivity. }
        rewrite starts_false in S. inversion O3 as [v' H E1 E2|a b o' Fa H E1 E2]; subst.
        -- apply sa_none. intros a b E. destruct a as [|x a]; [exact (S b E)|].
           injection E as _ E. exact (H a b E).
        -- change (c :: a ++ lit ++ b) with ((c :: a) ++ lit ++ b).
           change (c :: a ++ [] ++ o') with ((c :: a) ++ [] ++ o'). apply sa_one; [|exact H].
           intros a' b' E. destruct a' as [|x a']; [destruct (S b' E)|].
           injection E as _ E. cbn [length]. apply le_n_S. eapply Fa, E.
Qed.

Lemma remove_ok o v :
  o <> [] -> nul_free v -> exists r, t_remove (Some o) v = Val r /\ subst_all o [] v r.
Proof.
  intros N Nv. destruct o as [|c o]; [congruence|].
  destruct (remove_loop_ok (c :: o) (length v) N v (w_new (length v + 1) 0)) as (r & R1 & R2 & R3);
    [lia|apply new_fits|cbn [w_new w_out w_cap length]; lia|].
  exists r. split; [|exact R3]. unfold t_remove, of_wr. rewrite (proj1 R1), R2.
  cbn [w_new w_out app]. rewrite cstr_id; [reflexivity|].
  clear - R3 Nv. induction R3 as [v H|a b o' Fa H IH]; [exact Nv|]. cbn [app].
  apply nul_free_app in Nv as [N1 N2]. apply nul_free_app in N2 as [_ N2].
  apply nul_free_app. split; [exact N1|apply IH, N2].
Qed.
