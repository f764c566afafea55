(** Lemmas about formulas. *)
From Verif Require Import Base BaseL M_Md M_Math S_Math S_ManHtml L_ManHtml.

Lemma ceqs a b : ceq a b = true -> a = b.
Proof. apply ceq_eq. Qed.
Lemma gap_blank c : gap c = blank c.
Proof. unfold gap, blank. cbn [existsb]. rewrite orb_false_r, orb_assoc. reflexivity. Qed.
Definition ends_bs (x : str) : bool := match rev x with c :: _ => ceq c BS | [] => false end.
Lemma escaping_last x : (forall y, x <> y ++ [BS; BS]) -> escaping x = ends_bs x.
Proof.
  intros N. unfold escaping, ends_bs. destruct (rev x) as [|c r] eqn:E; [reflexivity|]. cbn [odd_start].
  destruct (ceq c BS) eqn:C; [|reflexivity]. apply ceqs in C as ->. destruct r as [|d r]; [reflexivity|]. cbn [odd_start].
  destruct (ceq d BS) eqn:D; [|reflexivity]. apply ceqs in D as ->. exfalso. apply (N (rev r)).
  rewrite <- (rev_involutive x), E. cbn [rev]. rewrite <- app_assoc. reflexivity.
Qed.
(** [x]: what has been passed, from the first dollar sign on. *)
Lemma close_spec s : forall x prev i, x <> [] -> (exists y, x = y ++ [prev]) -> length x = i -> forall n, n <> 0 ->
  (close i prev s = n <-> exists body rest, s = body ++ DL :: rest /\ n = i + length body + 1 /\ 1 < i + length body /\
    (forall a b, body = a ++ DL :: b -> ends_bs (x ++ a) = true) /\ ends_bs (x ++ body) = false /\
    (exists y c, x ++ body = y ++ [c] /\ gap c = false)).
Proof.
  assert (EB : forall y c, ends_bs (y ++ [c]) = ceq c BS) by (intros y c; unfold ends_bs; rewrite rev_unit; reflexivity).
  induction s as [|c s IH]; intros x prev i X (y & ->) L n N.
  - cbn [close]. split; [intros <-; contradiction|]. intros (body & rest & E & _). destruct body; discriminate E.
  - cbn [close].
    assert (K : forall P : Prop, P \/ ~ P -> True) by auto. clear K.
    assert (Step : (ceq c DL = true -> ceq prev BS = true) ->
      (close (S i) c s = n <-> exists body rest, c :: s = body ++ DL :: rest /\ n = i + length body + 1 /\ 1 < i + length body /\
        (forall a b, body = a ++ DL :: b -> ends_bs ((y ++ [prev]) ++ a) = true) /\ ends_bs ((y ++ [prev]) ++ body) = false /\
        (exists z d, (y ++ [prev]) ++ body = z ++ [d] /\ gap d = false))).
    { intros Hc. rewrite (IH ((y ++ [prev]) ++ [c]) c (S i)); [|destruct y; discriminate|eexists; reflexivity|rewrite app_length, L; cbn; lia|exact N].
      split.
      - intros (body & rest & E & E2 & E3 & E4 & E5 & E6). exists (c :: body), rest. subst s. split; [reflexivity|]. cbn [length].
        split; [lia|]. split; [lia|]. split; [|split].
        + intros a b F. destruct a as [|a0 a].
          * injection F as -> _. rewrite app_nil_r, EB. apply Hc. apply ceq_refl.
          * injection F as -> F. replace ((y ++ [prev]) ++ a0 :: a) with (((y ++ [prev]) ++ [a0]) ++ a) by (rewrite <- !app_assoc; reflexivity). exact (E4 a b F).
        + replace ((y ++ [prev]) ++ c :: body) with (((y ++ [prev]) ++ [c]) ++ body) by (rewrite <- !app_assoc; reflexivity). exact E5.
        + replace ((y ++ [prev]) ++ c :: body) with (((y ++ [prev]) ++ [c]) ++ body) by (rewrite <- !app_assoc; reflexivity). exact E6.
      - intros (body & rest & E & E2 & E3 & E4 & E5 & E6). destruct body as [|b0 body].
        + injection E as -> _. rewrite app_nil_r, EB in E5. rewrite (Hc (ceq_refl _)) in E5. discriminate E5.
        + injection E as <- ->. exists body, rest. split; [reflexivity|]. cbn [length] in E2, E3. split; [lia|].
          split; [lia|]. split; [|split].
          * intros a b F. specialize (E4 (c :: a) b). rewrite F in E4. specialize (E4 eq_refl). rewrite <- app_assoc. exact E4.
          * rewrite <- app_assoc. exact E5.
          * rewrite <- app_assoc. exact E6. }
    destruct (ceq c DL) eqn:C; [|apply Step; discriminate]. destruct (ceq prev BS) eqn:P; [apply Step; reflexivity|]. clear Step IH.
    apply ceqs in C as ->. split.
    + intros H. exists [], s. split; [reflexivity|]. cbn [length].
      destruct (1 <? i) eqn:I1; cbn [andb] in H.
      * destruct (gap prev) eqn:G; [subst n; contradiction|]. destruct (i =? 1); [subst n; contradiction|]. split; [lia|].
        apply Nat.ltb_lt in I1. split; [lia|]. split; [intros a b F; destruct a; discriminate F|]. rewrite app_nil_r, EB. split; [exact P|].
        exists y, prev. auto.
      * apply Nat.ltb_ge in I1. assert (i = 1) as -> by (rewrite app_length in L; cbn in L; lia). cbn in H. subst n. contradiction.
    + intros (body & rest & E & E2 & E3 & E4 & E5 & E6). destruct body as [|b0 body].
      * cbn [length] in *. destruct E6 as (z & d & F & G). rewrite app_nil_r in F. apply app_inj_tail in F as [_ <-]. rewrite G, andb_false_r.
        destruct (i =? 1) eqn:I1; [apply Nat.eqb_eq in I1; lia|]. lia.
      * injection E as <- ->. specialize (E4 [] body eq_refl). rewrite app_nil_r, EB in E4. rewrite E4 in P. discriminate P.
Qed.
Lemma scan_inline s n : single_escapes s -> n <> 0 ->
  (scan_dollar s = (n, false) <-> exists body rest, inline_formula s body rest /\ n = length body + 2).
Proof.
  intros SE N. unfold scan_dollar. split.
  - destruct (length s <? 3); [intros [= <-]; contradiction|]. destruct s as [|a [|b r]]; try (intros [= <-]; contradiction).
    destruct (ceq a DL) eqn:A; [|intros [= <-]; contradiction]. apply ceqs in A as ->.
    destruct (ceq b DL) eqn:D; [discriminate|]. cbn [andb]. rewrite orb_false_r. destruct (gap b) eqn:G; [intros [= <-]; contradiction|].
    intros H. apply (f_equal fst) in H. cbn [fst] in H. apply (close_spec _ [DL] DL 1) in H as (body & rest & E & E2 & E3 & E4 & E5 & E6);
      [|discriminate|exists []; reflexivity|reflexivity|exact N].
    exists body, rest. split; [|lia].
    assert (BE : forall x z, DL :: b :: r = x ++ DL :: z -> escaping x = ends_bs x).
    { intros x z F. apply escaping_last. intros y ->. apply (SE y z). rewrite F, <- app_assoc. reflexivity. }
    assert (SH : forall x, x <> [] -> ends_bs (DL :: x) = ends_bs x).
    { intros x X. unfold ends_bs. cbn [rev]. destruct (rev x) as [|c t] eqn:R; [|reflexivity]. destruct X. rewrite <- (rev_involutive x), R. reflexivity. }
    assert (OS : forall x, x <> [] -> escaping (DL :: x) = escaping x).
    { intros x _. unfold escaping. cbn [rev]. induction (rev x) as [|c t IH]; [reflexivity|]. cbn [app odd_start]. rewrite IH. reflexivity. }
    destruct body as [|b0 body]; [cbn in E3; lia|]. injection E as -> ->.
    split; [reflexivity|]. split; [exists b0, body; split; [reflexivity|]; split; [rewrite <- gap_blank; exact G|intros ->; discriminate D]|]. split; [|split].
    + destruct E6 as (y & c & F & Gc). destruct y as [|y0 y]; [discriminate F|]. injection F as _ F. exists y, c. split; [exact F|]. rewrite <- gap_blank. exact Gc.
    + intros a t F. assert (A : a <> []) by (intros ->; injection F as -> _; discriminate D).
      specialize (E4 a t F). change ([DL] ++ a) with (DL :: a) in E4. rewrite <- OS by exact A. rewrite (BE (DL :: a) (t ++ DL :: rest)); [exact E4|].
      change (DL :: b0 :: body ++ DL :: rest) with (DL :: (b0 :: body) ++ DL :: rest). rewrite F. cbn [app]. rewrite <- app_assoc. reflexivity.
    + rewrite <- OS by discriminate. rewrite (BE (DL :: b0 :: body) rest); [exact E5|reflexivity].
  - intros (body & rest & (-> & (c & x & Eb & B1 & B2) & (y & d & Ey & B3) & B4 & B5) & ->).
    assert (L : length (dollar :: body ++ dollar :: rest) <? 3 = false) by (apply Nat.ltb_ge; subst body; cbn; rewrite app_length; cbn; lia).
    rewrite L. clear L. subst body. cbn [app]. change (ceq dollar DL) with true. cbn [andb].
    assert (D : ceq c DL = false) by (apply ceq_neq; exact B2). rewrite D, gap_blank, B1. cbn [orb]. f_equal.
    apply (close_spec _ [DL] DL 1); [discriminate|exists []; reflexivity|reflexivity|exact N|].
    assert (BE : forall u z, dollar :: c :: x ++ dollar :: rest = u ++ DL :: z -> escaping u = ends_bs u).
    { intros u z F. apply escaping_last. intros v ->. apply (SE v z). change (dollar :: (c :: x) ++ dollar :: rest) with (dollar :: c :: x ++ dollar :: rest). rewrite F, <- app_assoc. reflexivity. }
    assert (OS : forall u, escaping (DL :: u) = escaping u).
    { intros u. unfold escaping. cbn [rev]. induction (rev u) as [|e t IH]; [reflexivity|]. cbn [app odd_start]. rewrite IH. reflexivity. }
    exists (c :: x), rest. split; [reflexivity|]. cbn [length]. split; [lia|]. split; [lia|]. split; [|split].
    + intros a b F. change ([DL] ++ a) with (DL :: a). rewrite <- (BE (DL :: a) (b ++ DL :: rest)).
      * rewrite OS. exact (B4 a b F).
      * change (dollar :: c :: x ++ dollar :: rest) with (dollar :: (c :: x) ++ dollar :: rest). rewrite F. cbn [app]. rewrite <- app_assoc. reflexivity.
    + change ([DL] ++ c :: x) with (DL :: c :: x). rewrite <- (BE (DL :: c :: x) rest eq_refl), OS. exact B5.
    + exists (DL :: y), d. split; [rewrite Ey; reflexivity|]. rewrite gap_blank. exact B3.
Qed.
Lemma close2_spec s : forall i n, n <> 0 -> (close2 i s = n <-> exists body rest, s = body ++ DL :: DL :: rest /\ n = i + length body + 2 /\
  forall a b, s = a ++ DL :: DL :: b -> length body <= length a).
Proof.
  induction s as [|c s IH]; intros i n N.
  - cbn [close2]. split; [intros <-; contradiction|]. intros (body & rest & E & _). destruct body; discriminate E.
  - cbn [close2]. destruct s as [|d s].
    + split; [intros <-; contradiction|]. intros (body & rest & E & _). destruct body as [|? [|? ?]]; discriminate E.
    + destruct (ceq c DL && ceq d DL) eqn:C.
      * apply andb_true_iff in C as [C D]. apply ceqs in C as ->, D as ->. split.
        -- intros <-. exists [], s. split; [reflexivity|]. cbn [length]. split; [lia|]. intros. lia.
        -- intros (body & rest & E & -> & M). specialize (M [] s eq_refl). destruct body; [cbn; lia|cbn in M; lia].
      * rewrite IH by exact N. split.
        -- intros (body & rest & E & E2 & M). exists (c :: body), rest. split; [rewrite E; reflexivity|]. cbn [length]. split; [lia|].
           intros a b F. destruct a as [|a0 a]; [injection F as -> -> _; discriminate C|]. injection F as _ F. cbn [length]. specialize (M a b F). lia.
        -- intros (body & rest & E & E2 & M). destruct body as [|b0 body]; [injection E as -> -> _; discriminate C|]. injection E as <- E.
           exists body, rest. split; [exact E|]. cbn [length] in E2. split; [lia|]. intros a b F. specialize (M (c :: a) b). rewrite F in M. specialize (M eq_refl). cbn in M. lia.
Qed.
Lemma scan_display s n : n <> 0 -> (scan_dollar s = (n, true) <-> exists body rest, display_formula s body rest /\ n = length body + 4).
Proof.
  intros N. unfold scan_dollar. split.
  - destruct (length s <? 3); [discriminate|]. destruct s as [|a [|b r]]; try discriminate.
    destruct (ceq a DL && ceq b DL) eqn:A; [|destruct (ceq a DL); [destruct (gap b || ceq b DL)|]; discriminate].
    apply andb_true_iff in A as [A D]. apply ceqs in A as ->, D as ->. intros [= H]. apply close2_spec in H as (body & rest & -> & E2 & M); [|exact N].
    exists body, rest. split; [|lia]. split; [reflexivity|exact M].
  - intros (body & rest & (-> & M) & ->).
    assert (L : length (dollar :: dollar :: body ++ dollar :: dollar :: rest) <? 3 = false) by (apply Nat.ltb_ge; cbn; rewrite app_length; cbn; lia).
    rewrite L. change (ceq dollar DL && ceq dollar DL) with true. cbv iota. f_equal. apply close2_spec; [exact N|].
    exists body, rest. split; [reflexivity|]. split; [lia|exact M].
Qed.
Lemma upto_nul_id s : ~ In NUL s -> upto_nul s = s.
Proof.
  unfold upto_nul. induction s as [|c s IH]; intros N; [reflexivity|]. cbn [span].
  assert (C : ceq c NUL = false) by (apply ceq_neq; intros ->; apply N; left; reflexivity). rewrite C. cbn [negb].
  destruct (span (fun c => negb (ceq c NUL)) s) as [a b] eqn:E. cbn [fst] in *. f_equal. apply IH. intros J. apply N. right. exact J.
Qed.
Lemma fit n (x y z : str) : length y = n -> length x + length z <= 99 -> firstn (n + 99) (x ++ y ++ z) = x ++ y ++ z.
Proof. intros L H. apply firstn_all2. rewrite !app_length. lia. Qed.
Lemma match_inline s body rest : single_escapes s -> inline_formula s body rest -> ~ In NUL body ->
  match_math s = Some (span_open false ++ body ++ span_close false, length body + 2).
Proof.
  intros SE F N0. assert (E : scan_dollar s = (length body + 2, false)) by (apply scan_inline; [exact SE|lia|eauto]).
  unfold match_math. rewrite E. destruct F as (-> & (c & x & Eb & _) & _).
  replace (length body + 2 =? 0) with false by (symmetry; apply Nat.eqb_neq; lia). replace (length body + 2 - 1 - 1) with (length body) by lia.
  replace (length body =? 0) with false by (symmetry; apply Nat.eqb_neq; subst body; discriminate).
  cbn [skipn]. rewrite (firstn_app (length body) body), firstn_all, Nat.sub_diag. cbn [firstn]. rewrite app_nil_r, (upto_nul_id body N0), fit; [reflexivity|reflexivity|vm_compute; lia].
Qed.
Lemma match_display s body rest : display_formula s body rest -> body <> [] -> ~ In NUL body ->
  match_math s = Some (span_open true ++ body ++ span_close true, length body + 4).
Proof.
  intros F B0 N0. assert (E : scan_dollar s = (length body + 4, true)) by (apply scan_display; [lia|eauto]).
  unfold match_math. rewrite E. destruct F as (-> & _).
  replace (length body + 4 =? 0) with false by (symmetry; apply Nat.eqb_neq; lia). replace (length body + 4 - 2 - 2) with (length body) by lia.
  replace (length body =? 0) with false by (symmetry; apply Nat.eqb_neq; destruct body; [contradiction|discriminate]).
  cbn [skipn]. rewrite (firstn_app (length body) body), firstn_all, Nat.sub_diag. cbn [firstn]. rewrite app_nil_r, (upto_nul_id body N0), fit; [reflexivity|reflexivity|vm_compute; lia].
Qed.
Lemma match_none s : single_escapes s -> match_math s = None <->
  (forall body rest, ~ inline_formula s body rest) /\ (forall body rest, display_formula s body rest -> body = []).
Proof.
  intros SE. unfold match_math. destruct (scan_dollar s) as [n display] eqn:E. split.
  - intros H. split.
    + intros body rest F. assert (E2 : scan_dollar s = (length body + 2, false)) by (apply scan_inline; [exact SE|lia|eauto]).
      rewrite E in E2. injection E2 as -> ->. destruct F as (_ & (c & x & -> & _) & _). cbn [length] in H.
      replace (S (length x) + 2 =? 0) with false in H by (symmetry; apply Nat.eqb_neq; lia).
      replace (S (length x) + 2 - 1 - 1 =? 0) with false in H by (symmetry; apply Nat.eqb_neq; lia). discriminate H.
    + intros body rest F. assert (E2 : scan_dollar s = (length body + 4, true)) by (apply scan_display; [lia|eauto]).
      rewrite E in E2. injection E2 as -> ->. destruct body as [|c x]; [reflexivity|]. cbn [length] in H.
      replace (S (length x) + 4 =? 0) with false in H by (symmetry; apply Nat.eqb_neq; lia).
      replace (S (length x) + 4 - 2 - 2 =? 0) with false in H by (symmetry; apply Nat.eqb_neq; lia). discriminate H.
  - intros (H1 & H2). destruct (n =? 0) eqn:N; [reflexivity|]. apply Nat.eqb_neq in N. destruct display.
    + apply scan_display in E as (body & rest & F & ->); [|exact N]. rewrite (H2 _ _ F). reflexivity.
    + apply scan_inline in E as (body & rest & F & ->); [|exact SE|exact N]. destruct (H1 _ _ F).
Qed.
Lemma match_some s : single_escapes s -> forall n lit, match_math s = Some (lit, n) ->
  (exists body rest, inline_formula s body rest /\ n = length body + 2) \/
  (exists body rest, display_formula s body rest /\ body <> [] /\ n = length body + 4).
Proof.
  intros SE n lit. unfold match_math. destruct (scan_dollar s) as [k display] eqn:E. destruct (k =? 0) eqn:K; [discriminate|]. apply Nat.eqb_neq in K.
  destruct display.
  - apply scan_display in E as (body & rest & F & ->); [|exact K]. destruct (_ =? 0) eqn:Z; [discriminate|]. intros [= _ <-]. right. exists body, rest.
    split; [exact F|]. split; [|reflexivity]. intros ->. discriminate Z.
  - apply scan_inline in E as (body & rest & F & ->); [|exact SE|exact K]. destruct (_ =? 0) eqn:Z; [discriminate|]. intros [= _ <-]. left. eauto.
Qed.
Lemma lit_shown display body : ~ In "<"%char body -> ~ In "&"%char body ->
  complete (span_open display ++ body ++ span_close display) /\
  text_of (span_open display ++ body ++ span_close display) = (if display then B "\[" ++ body ++ B "\]" else B "\(" ++ body ++ B "\)") /\
  tags_of (span_open display ++ body ++ span_close display) = [B "span class=" ++ [DQ] ++ (if display then B "math display" else B "math inline") ++ [DQ]; B "/span"].
Proof.
  intros N1 N2.
  assert (R : run Tx (span_open display ++ body ++ span_close display) =
    (Tx, (Tg (B "span class=" ++ [DQ] ++ (if display then B "math display" else B "math inline") ++ [DQ]) :: map Ch (if display then B "\[" else B "\(")) ++ map Ch body ++
      map Ch (if display then B "\]" else B "\)") ++ [Tg (B "/span")])).
  { apply (run_to _ _ Tx Tx _ Tx); [destruct display; reflexivity|]. apply (run_to _ _ Tx Tx _ Tx); [exact (run_plain body N1 N2)|]. destruct display; reflexivity. }
  unfold complete, text_of, tags_of. rewrite R. cbn [fst snd]. split; [reflexivity|]. rewrite !shown_app, !tags_app, shown_ch.
  assert (T : tags (map Ch body) = []) by (clear; induction body; [reflexivity|assumption]). rewrite T.
  destruct display; split; reflexivity.
Qed.
Lemma match_shown s body rest (display : bool) : single_escapes s \/ display = true ->
  (if display then display_formula s body rest /\ body <> [] else inline_formula s body rest) ->
  ~ In NUL body -> ~ In "<"%char body -> ~ In "&"%char body ->
  exists lit, match_math s = Some (lit, length body + (if display then 4 else 2)) /\ complete lit /\
    text_of lit = (if display then B "\[" ++ body ++ B "\]" else B "\(" ++ body ++ B "\)") /\
    tags_of lit = [B "span class=" ++ [DQ] ++ (if display then B "math display" else B "math inline") ++ [DQ]; B "/span"].
Proof.
  intros SE F N0 N1 N2. exists (span_open display ++ body ++ span_close display). split; [|exact (lit_shown display body N1 N2)].
  destruct display; [destruct F as [F B0]; exact (match_display s body rest F B0 N0)|]. destruct SE as [SE|SE]; [|discriminate SE].
  exact (match_inline s body rest SE F N0).
Qed.
