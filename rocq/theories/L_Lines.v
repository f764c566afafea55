(** Lemmas for P_Lines. *)
From Verif Require Import Base BaseL Dec M_Csv L_Csv M_Lines S_Lines.

Lemma lines_lines content ls tail : Lines content ls tail -> lines_ content = all_lines ls tail.
Proof.
  intros (-> & H & Ht). unfold all_lines. induction H as [|l ls Hl H IH]; cbn [map concat app].
  - destruct tail as [|c t]; [reflexivity|]. apply lines_plain; [exact Ht|discriminate].
  - rewrite <- !app_assoc. cbn [app]. rewrite (lines_more l _ Hl), IH. reflexivity.
Qed.
Lemma count_app c a b : count c (a ++ b) = count c a + count c b.
Proof. unfold count. rewrite filter_app, app_length. reflexivity. Qed.
Lemma count_none c s : ~ In c s -> count c s = 0.
Proof.
  induction s as [|x s IH]; [reflexivity|]. intros H. apply nin_cons in H as [N H]. unfold count in *. cbn [filter].
  destruct (ceq c x) eqn:E; [apply ceq_eq in E; congruence|]. exact (IH H).
Qed.
Lemma lines_count content ls tail : Lines content ls tail -> count NL content = length ls.
Proof.
  intros (-> & H & Ht). rewrite count_app, (count_none NL tail Ht), Nat.add_0_r. induction H as [|l ls Hl H IH]; [reflexivity|].
  cbn [map concat length]. rewrite !count_app, IH, (count_none NL l Hl). reflexivity.
Qed.
Lemma lines_some content : exists ls tail, Lines content ls tail.
Proof.
  remember (length content) as n eqn:E. assert (Hn : length content <= n) by lia. clear E. revert content Hn.
  induction n as [|n IH]; intros s Hn.
  - destruct s; [|cbn in Hn; lia]. exists [], []. split; [reflexivity|]. split; [constructor|intros []].
  - destruct (split_line s) as [H|(l & r & -> & H)].
    + exists [], s. split; [reflexivity|]. split; [constructor|exact H].
    + destruct (IH r) as (ls & tail & -> & H1 & H2); [rewrite app_length in Hn; cbn in Hn; lia|].
      exists (l :: ls), tail. split; [cbn [map concat]; rewrite <- !app_assoc; reflexivity|]. split; [constructor; assumption|exact H2].
Qed.
Definition weight (ls : list str) : nat := list_sum (map (fun l => S (length l)) ls).
Lemma weight_app a b : weight (a ++ b) = weight a + weight b.
Proof. unfold weight. rewrite map_app, list_sum_app. reflexivity. Qed.
Lemma weight_cons l b : weight (l :: b) = S (length l) + weight b.
Proof. reflexivity. Qed.
Lemma lines_weight content ls tail : Lines content ls tail -> weight ls + length tail = length content.
Proof.
  intros (-> & _ & _). rewrite app_length. f_equal. induction ls as [|l ls IH]; [reflexivity|].
  rewrite weight_cons, IH. cbn [map concat]. rewrite !app_length. cbn. lia.
Qed.

(** * The writer *)
Definition wok (w : wr) : Prop := length (w_out w) + w_rem w = w_cap w /\ w_oob w = false /\ 1 <= w_rem w.
Lemma wok_store s w r : wok w -> length s + r = w_rem w -> 1 <= r -> wok (w_set_rem r (w_store s w)).
Proof.
  intros (H1 & H2 & H3) L Hr. unfold wok, w_set_rem, w_store. cbn [w_out w_rem w_cap w_oob]. rewrite app_length.
  split; [lia|]. split; [|exact Hr]. rewrite H2. cbn [orb]. destruct s; [reflexivity|].
  destruct (Nat.ltb_spec (w_cap w) (length (w_out w) + length (a :: s))); [lia|reflexivity].
Qed.
Lemma wok_term w : wok w -> w_oob (w_term w) = false.
Proof.
  intros (H1 & H2 & H3). unfold w_term. cbn [w_oob]. rewrite H2. cbn [orb]. destruct (Nat.leb_spec (w_cap w) (length (w_out w))); [lia|reflexivity].
Qed.
Lemma wok_result w : wok w -> result w = Text (w_out w).
Proof. intros H. unfold result. cbv zeta. rewrite (wok_term w H). reflexivity. Qed.
Lemma store_term_oob s w : wok w -> length s < w_rem w -> w_oob (w_term (w_store s w)) = false.
Proof.
  intros (H1 & H2 & H3) L. unfold w_term, w_store. cbn [w_oob w_cap w_out]. rewrite H2, app_length. cbn [orb].
  destruct (Nat.leb_spec (w_cap w) (length (w_out w) + length s)); [lia|]. rewrite orb_false_r.
  destruct s; [reflexivity|]. destruct (Nat.ltb_spec (w_cap w) (length (w_out w) + length (a :: s))); [lia|reflexivity].
Qed.
(** The effect of storing the line *)
Lemma emit_tail l w : wok w -> length l + 1 < w_rem w ->
  let w' := w_set_rem (w_rem w - length l - 1) (w_store [NL] (w_store l w)) in
  wok w' /\ w_out w' = w_out w ++ l ++ [NL] /\ w_rem w' = w_rem w - length l - 1 /\ w_cap w' = w_cap w.
Proof.
  intros (H1 & H2 & H3) L. cbv zeta. unfold wok, w_set_rem, w_store. cbn [w_out w_rem w_cap w_oob]. rewrite !app_length.
  split; [|split; [rewrite <- app_assoc; reflexivity|split; reflexivity]].
  split; [cbn [length]; lia|]. split; [|lia]. rewrite H2. cbn [orb].
  destruct l as [|c l].
  - cbn [orb]. destruct (Nat.ltb_spec (w_cap w) (length (w_out w) + length (@nil ascii) + length [NL])); cbn [length] in *; [lia|reflexivity].
  - destruct (Nat.ltb_spec (w_cap w) (length (w_out w) + length (c :: l))); [lia|]. cbn [orb].
    destruct (Nat.ltb_spec (w_cap w) (length (w_out w) + length (c :: l) + length [NL])); cbn [length] in *; [lia|reflexivity].
Qed.
Lemma prefix_step p w (l : str) : wok w -> length p + length l + 10 < w_rem w ->
  let w' := w_set_rem (w_rem w - length p) (w_term (w_store p w)) in
  wok w' /\ w_out w' = w_out w ++ p /\ w_rem w' = w_rem w - length p /\ w_cap w' = w_cap w.
Proof.
  intros H L. cbv zeta. pose proof (store_term_oob p w H ltac:(lia)) as O. destruct H as (H1 & H2 & H3).
  split; [|split; [reflexivity|split; reflexivity]]. unfold wok, w_set_rem. cbn [w_out w_rem w_cap w_oob].
  split; [unfold w_term, w_store; cbn [w_out w_cap]; rewrite app_length; lia|]. split; [|lia]. exact O.
Qed.
Lemma emit_line_ok p l w : wok w -> wok (emit_line p l w) /\ w_cap (emit_line p l w) = w_cap w.
Proof.
  intros H. unfold emit_line. destruct (Nat.ltb_spec (length l + 100) (w_rem w)) as [L|L]; [|split; [exact H|reflexivity]].
  destruct p as [p|].
  - destruct (Nat.ltb_spec (length p + length l + 10) (w_rem w)) as [L2|L2].
    + destruct (prefix_step p w l H L2) as (K1 & K2 & K3 & K4). cbv zeta in *.
      set (w1 := w_set_rem (w_rem w - length p) (w_term (w_store p w))) in *.
      destruct (emit_tail l w1 K1 ltac:(rewrite K3; lia)) as (J1 & _ & _ & J4). split; [exact J1|]. rewrite J4. exact K4.
    + destruct (emit_tail l w H ltac:(lia)) as (J1 & _ & _ & J4). split; [exact J1|exact J4].
  - destruct (emit_tail l w H ltac:(lia)) as (J1 & _ & _ & J4). split; [exact J1|exact J4].
Qed.
Lemma emit_line_out p l w : wok w -> length (prefix_text p) + length l + 100 < w_rem w ->
  w_out (emit_line p l w) = w_out w ++ prefix_text p ++ l ++ [NL] /\ w_rem (emit_line p l w) = w_rem w - length (prefix_text p) - length l - 1.
Proof.
  intros H L. unfold emit_line. destruct (Nat.ltb_spec (length l + 100) (w_rem w)) as [_|L']; [|lia].
  destruct p as [p|]; cbn [prefix_text] in *.
  - destruct (Nat.ltb_spec (length p + length l + 10) (w_rem w)) as [L2|L2]; [|lia].
    destruct (prefix_step p w l H L2) as (K1 & K2 & K3 & K4). cbv zeta in *.
    set (w1 := w_set_rem (w_rem w - length p) (w_term (w_store p w))) in *.
    destruct (emit_tail l w1 K1 ltac:(rewrite K3; lia)) as (_ & J2 & J3 & _). cbv zeta in *. rewrite J2, J3, K2, K3. split; [rewrite <- app_assoc; reflexivity|reflexivity].
  - destruct (emit_tail l w H ltac:(lia)) as (_ & J2 & J3 & _). cbv zeta in *. rewrite J2, J3. cbn [length app]. split; [reflexivity|lia].
Qed.
Fixpoint picked (n lo hi : nat) (ls : list str) : list str :=
  match ls with [] => [] | l :: r => (if (lo <=? n) && (n <? hi) then [l] else []) ++ picked (S n) lo hi r end.
Lemma emit_range_ok p lo hi ls : forall n w, wok w -> wok (emit_range p n lo hi ls w).
Proof.
  induction ls as [|l ls IH]; intros n w H; [exact H|]. cbn [emit_range]. apply IH. destruct (_ && _); [|exact H]. apply emit_line_ok. exact H.
Qed.
Lemma emit_range_out p lo hi ls : forall n w, wok w ->
  weight (picked n lo hi ls) + length (prefix_text p) * length (picked n lo hi ls) + 100 <= w_rem w ->
  w_out (emit_range p n lo hi ls w) = w_out w ++ text (prefix_text p) (picked n lo hi ls).
Proof.
  induction ls as [|l ls IH]; intros n w H B; [cbn; rewrite app_nil_r; reflexivity|].
  cbn [emit_range picked] in *. destruct ((lo <=? n) && (n <? hi)).
  - cbn [app] in *. rewrite weight_cons in B. cbn [length] in B. rewrite Nat.mul_succ_r in B.
    destruct (emit_line_out p l w H ltac:(lia)) as [O R]. destruct (emit_line_ok p l w H) as [K _].
    rewrite IH; [|exact K|rewrite R; lia]. rewrite O. unfold text. cbn [map concat]. rewrite <- !app_assoc. reflexivity.
  - cbn [app] in *. apply IH; assumption.
Qed.
Lemma picked_spec lo hi ls : forall n, picked n lo hi ls = firstn (hi - Nat.max lo n) (skipn (lo - n) ls).
Proof.
  induction ls as [|l ls IH]; intros n; cbn [picked].
  - rewrite skipn_nil, firstn_nil. reflexivity.
  - rewrite IH. destruct (Nat.leb_spec lo n) as [L|L]; cbn [andb].
    + replace (lo - n) with 0 by lia. replace (lo - S n) with 0 by lia. replace (Nat.max lo n) with n by lia. replace (Nat.max lo (S n)) with (S n) by lia.
      cbn [skipn]. destruct (Nat.ltb_spec n hi) as [L2|L2].
      * replace (hi - n) with (S (hi - S n)) by lia. reflexivity.
      * replace (hi - n) with 0 by lia. replace (hi - S n) with 0 by lia. reflexivity.
    + cbn [app]. replace (lo - n) with (S (lo - S n)) by lia. cbn [skipn]. f_equal. lia.
Qed.
Lemma picked_pick lo hi ls : 1 <= lo -> picked 1 lo hi ls = pick lo hi ls.
Proof. intros H. rewrite picked_spec. unfold pick. f_equal. lia. Qed.
Lemma pick_short lo hi ls tail : 1 <= lo -> hi <= S (length ls) -> pick lo hi (all_lines ls tail) = pick lo hi ls.
Proof.
  intros H1 H. unfold pick, all_lines. destruct (le_lt_dec (length ls) (lo - 1)) as [L|L].
  - replace (hi - lo) with 0 by lia. reflexivity.
  - rewrite skipn_app. replace (lo - 1 - length ls) with 0 by lia. cbn [skipn].
    rewrite firstn_app, skipn_length. replace (hi - lo - (length ls - (lo - 1))) with 0 by lia. rewrite firstn_O, app_nil_r. reflexivity.
Qed.
Lemma weight_pick lo hi ls : weight (pick lo hi ls) <= weight ls.
Proof.
  unfold pick. pose proof (firstn_skipn (lo - 1) ls) as E1. pose proof (firstn_skipn (hi - lo) (skipn (lo - 1) ls)) as E2.
  rewrite <- E1 at 2. rewrite weight_app. rewrite <- E2 at 2. rewrite weight_app. lia.
Qed.
Lemma emit_safe p lo hi content : emit p lo hi content <> Bad.
Proof.
  unfold emit. cbv zeta. rewrite wok_result; [discriminate|]. apply emit_range_ok.
  unfold wok, w_new. cbn. split; [reflexivity|]. split; [reflexivity|lia].
Qed.
Lemma emit_spec p lo hi content ls tail : Lines content ls tail -> 1 <= lo -> hi <= S (length ls) ->
  length (prefix_text p) * length (pick lo hi ls) <= 924 -> emit p lo hi content = Text (text (prefix_text p) (pick lo hi ls)).
Proof.
  intros HL Hlo Hhi B. unfold emit. cbv zeta.
  assert (K : wok (w_new (length content + 1024) (length content + 1024))).
  { unfold wok, w_new. cbn. split; [reflexivity|]. split; [reflexivity|lia]. }
  rewrite wok_result by (apply emit_range_ok; exact K). rewrite (lines_lines _ _ _ HL).
  rewrite emit_range_out; [|exact K|].
  - cbn [w_out w_new app]. rewrite picked_pick, pick_short by assumption. reflexivity.
  - rewrite picked_pick, pick_short by assumption. cbn [w_rem w_new]. pose proof (weight_pick lo hi ls).
    pose proof (lines_weight _ _ _ HL). lia.
Qed.
Lemma pick_over n m ls : length ls < m -> pick n m ls = from n ls.
Proof. intros H. unfold pick, from. apply firstn_all2. rewrite skipn_length. lia. Qed.
Lemma pick_beyond n m ls : length ls < n -> pick n m ls = [].
Proof. intros H. unfold pick. rewrite skipn_all2 by lia. apply firstn_nil. Qed.
Lemma pick_min n m k ls : length ls < k -> pick n (Nat.min m k) ls = pick n m ls.
Proof.
  intros H. destruct (le_lt_dec m k) as [L|L]; [rewrite Nat.min_l by exact L; reflexivity|]. rewrite Nat.min_r by lia.
  rewrite (pick_over n k ls H), (pick_over n m ls) by lia. reflexivity.
Qed.

(** * Ranges of lines *)
Lemma range_spec rc content ls tail n m p : Lines content ls tail -> 1 <= n <= m ->
  length (prefix_text p) * length (pick n m ls) <= 924 ->
  extract_lines rc content (Spec true false (Z.of_nat n) (Z.of_nat m) None None p) = Text (text (prefix_text p) (pick n m ls)).
Proof.
  intros HL Hn B. unfold extract_lines. cbn [line_range regex_range negb andb start_line end_line prefix].
  rewrite (lines_count _ _ _ HL). cbv zeta.
  replace (Z.of_nat n <? 1)%Z with false by lia. cbn [orb].
  destruct (Z.ltb_spec (Z.of_nat (S (length ls))) (Z.of_nat n)) as [L|L].
  - rewrite pick_beyond by lia. reflexivity.
  - replace (Z.of_nat m =? -1)%Z with false by lia.
    set (e := if (Z.of_nat (S (length ls)) <? Z.of_nat m)%Z then Z.of_nat (S (length ls)) else Z.of_nat m).
    assert (Ee : e = Z.of_nat (Nat.min m (S (length ls)))) by (unfold e; destruct (Z.ltb_spec (Z.of_nat (S (length ls))) (Z.of_nat m)); lia).
    rewrite Ee, !Nat2Z.id. replace (Z.of_nat (Nat.min m (S (length ls))) <? Z.of_nat n)%Z with false by lia.
    rewrite (emit_spec p n _ content ls tail HL); [|lia|lia|]; rewrite pick_min by lia; [reflexivity|exact B].
Qed.
Lemma open_spec rc content ls tail n p : Lines content ls tail -> 1 <= n ->
  length (prefix_text p) * length (from n ls) <= 924 ->
  extract_lines rc content (Spec true false (Z.of_nat n) (-1) None None p) = Text (text (prefix_text p) (from n ls)).
Proof.
  intros HL Hn B. unfold extract_lines. cbn [line_range regex_range negb andb start_line end_line prefix].
  rewrite (lines_count _ _ _ HL). cbv zeta.
  replace (Z.of_nat n <? 1)%Z with false by lia. cbn [orb].
  destruct (Z.ltb_spec (Z.of_nat (S (length ls))) (Z.of_nat n)) as [L|L].
  - unfold from. rewrite skipn_all2 by lia. reflexivity.
  - change (-1 =? -1)%Z with true. cbv iota. rewrite !Nat2Z.id. replace (Z.of_nat (S (length ls)) <? Z.of_nat n)%Z with false by lia.
    rewrite (emit_spec p n _ content ls tail HL); [|lia|lia|]; rewrite pick_over by lia; [reflexivity|exact B].
Qed.
(** * The prefix alone *)
Fixpoint pl (p : str) (st : bool) (s : str) : str :=
  match s with [] => [] | c :: r => (if st && negb (ceq c NL) then p else []) ++ c :: pl p (ceq c NL) r end.
Lemma prefix_loop_out p s : forall st w, w_oob w = false -> length (w_out w) + length (pl p st s) < w_cap w ->
  w_oob (prefix_loop p st s w) = false /\ w_cap (prefix_loop p st s w) = w_cap w /\
  w_out (prefix_loop p st s w) = w_out w ++ pl p st s.
Proof.
  induction s as [|c s IH]; intros st w Hw B; [cbn; rewrite app_nil_r; auto|].
  cbn [prefix_loop pl] in *. set (w1 := if st && negb (ceq c NL) then w_term (w_store p w) else w).
  assert (K : w_oob w1 = false /\ w_cap w1 = w_cap w /\ w_out w1 = w_out w ++ (if st && negb (ceq c NL) then p else [])).
  { unfold w1. rewrite app_length in B. cbn [length] in B. destruct (st && negb (ceq c NL)); [|rewrite app_nil_r; auto].
    split; [|split; reflexivity]. unfold w_term, w_store. cbn [w_oob w_cap w_out]. rewrite Hw, app_length. cbn [orb].
    destruct (Nat.leb_spec (w_cap w) (length (w_out w) + length p)); [lia|]. rewrite orb_false_r. destruct p as [|x p']; [reflexivity|].
    destruct (Nat.ltb_spec (w_cap w) (length (w_out w) + length (x :: p'))); [lia|reflexivity]. }
  destruct K as (K1 & K2 & K3). set (x := if st && negb (ceq c NL) then p else []) in *. clearbody w1 x.
  rewrite app_length in B. cbn [length] in B.
  destruct (IH (ceq c NL) (w_store [c] w1)) as (J1 & J2 & J3).
  - unfold w_store. cbn [w_oob w_cap w_out]. rewrite K1, K2, K3, app_length. cbn [length orb].
    destruct (Nat.ltb_spec (w_cap w) (length (w_out w) + length x + 1)); [lia|reflexivity].
  - unfold w_store. cbn [w_cap w_out]. rewrite K2, K3, !app_length. cbn [length]. lia.
  - rewrite J1, J2, J3. cbn [w_store w_cap w_out]. rewrite K2, K3, <- !app_assoc. auto.
Qed.
Lemma pl_plain p l : ~ In NL l -> pl p false l = l.
Proof.
  induction l as [|c l IH]; [reflexivity|]. intros H. apply nin_cons in H as [N H]. cbn [pl andb app].
  rewrite (proj2 (ceq_neq c NL)) by congruence. rewrite (IH H). reflexivity.
Qed.
Lemma pl_plain_line p l r : ~ In NL l -> pl p false (l ++ NL :: r) = l ++ NL :: pl p true r.
Proof.
  induction l as [|c l IH]; intros H; [reflexivity|]. apply nin_cons in H as [N H]. cbn [pl andb app].
  rewrite (proj2 (ceq_neq c NL)) by congruence. rewrite (IH H). reflexivity.
Qed.
Lemma pl_line p l r : ~ In NL l -> pl p true (l ++ NL :: r) = marked p l ++ NL :: pl p true r.
Proof.
  destruct l as [|c l]; intros H; [reflexivity|]. apply nin_cons in H as [N H]. cbn [pl andb app marked].
  rewrite (proj2 (ceq_neq c NL)) by congruence. cbn [negb]. rewrite (pl_plain_line p l r H), <- app_assoc. reflexivity.
Qed.
Lemma pl_tail p l : ~ In NL l -> pl p true l = marked p l.
Proof.
  destruct l as [|c l]; intros H; [reflexivity|]. apply nin_cons in H as [N H]. cbn [pl andb marked].
  rewrite (proj2 (ceq_neq c NL)) by congruence. cbn [negb]. rewrite (pl_plain p l H). reflexivity.
Qed.
Definition all_marked (p : str) (ls : list str) (tail : str) : str := concat (map (fun l => marked p l ++ [NL]) ls) ++ marked p tail.
Lemma pl_all p content ls tail : Lines content ls tail -> pl p true content = all_marked p ls tail.
Proof.
  intros (-> & H & Ht). unfold all_marked. induction H as [|l ls Hl H IH]; cbn [map concat app]; [apply pl_tail; exact Ht|].
  rewrite <- !app_assoc. cbn [app]. rewrite (pl_line p l _ Hl), IH. reflexivity.
Qed.
Lemma marked_length p l : length (marked p l) <= length p + length l.
Proof. destruct l; cbn [marked]; [lia|]. rewrite app_length. lia. Qed.
Lemma total_lines content ls tail : Lines content ls tail -> line_total content = length ls + match tail with [] => 0 | _ => 1 end.
Proof.
  intros HL. unfold line_total. rewrite (lines_count _ _ _ HL). f_equal. destruct HL as (-> & H & Ht). rewrite rev_app_distr.
  destruct (rev tail) as [|c t] eqn:E.
  - apply (f_equal (@rev ascii)) in E. rewrite rev_involutive in E. cbn in E. subst tail. cbn [app].
    destruct (rev (concat (map (fun l => l ++ [NL]) ls))) as [|c t] eqn:E; [reflexivity|].
    destruct (exists_last (l := ls)) as (ls' & l & ->); [intros ->; discriminate|].
    rewrite map_app, concat_app in E. cbn [map concat] in E. rewrite app_nil_r, !rev_app_distr in E. cbn in E. injection E as <- _. reflexivity.
  - cbn [app]. destruct tail as [|x tail]; [discriminate|]. rewrite (proj2 (ceq_neq c NL)); [reflexivity|].
    intros ->. apply Ht. apply in_rev. rewrite E. left. reflexivity.
Qed.
Lemma all_marked_length p ls tail : length (all_marked p ls tail) <=
  weight ls + length tail + length p * (length ls + match tail with [] => 0 | _ => 1 end).
Proof.
  unfold all_marked. rewrite app_length. assert (A : length (concat (map (fun l => marked p l ++ [NL]) ls)) <= weight ls + length p * length ls).
  { induction ls as [|l ls IH]; [cbn; lia|]. cbn [map concat length]. rewrite weight_cons, !app_length. cbn [length]. pose proof (marked_length p l). lia. }
  destruct tail as [|c t]; [cbn [marked length]; lia|]. pose proof (marked_length p (c :: t)). lia.
Qed.
Lemma prefix_all_spec p content ls tail : Lines content ls tail -> prefix_all p content = Text (all_marked p ls tail).
Proof.
  intros HL. unfold prefix_all. cbv zeta. rewrite (total_lines _ _ _ HL), <- (lines_weight _ _ _ HL).
  pose proof (all_marked_length p ls tail) as B. rewrite <- (pl_all p content ls tail HL) in *.
  set (n := weight ls + length tail + (length ls + match tail with [] => 0 | _ => 1 end) * length p + 1) in *.
  destruct (prefix_loop_out p content true (w_new n n)) as (J1 & J2 & J3); [reflexivity|cbn [w_out w_new w_cap length]; lia|].
  unfold result. cbv zeta. unfold w_term at 1. cbn [w_oob]. rewrite J1, J2, J3. cbn [orb w_new w_out w_cap app].
  destruct (Nat.leb_spec n (length (pl p true content))); [lia|]. unfold w_term. cbn [w_out]. rewrite J3. reflexivity.
Qed.

(** * Memory and termination *)
Lemma extract_safe rc content sp : extract_lines rc content sp <> Bad.
Proof.
  unfold extract_lines. cbv zeta. destruct (negb (line_range sp) && negb (regex_range sp)).
  - destruct (prefix sp) as [p|]; [|discriminate]. destruct (lines_some content) as (ls & tail & HL).
    rewrite (prefix_all_spec p _ _ _ HL). discriminate.
  - destruct (regex_range sp).
    + destruct (match regex_start sp with Some x => rc x | None => None end) as [ms|];
      destruct (match regex_end sp with Some x => rc x | None => None end) as [me|];
      try (match goal with |- context [find_range ?a ?b 1 None ?l] => destruct (find_range a b 1 None l) as [[f|] s] end);
      try discriminate; try apply emit_safe.
      destruct (prefix sp); discriminate.
    + destruct (_ || _); [discriminate|]. destruct (_ <? _)%Z; [discriminate|]. apply emit_safe.
Qed.
Definition dead (rc : str -> option (str -> bool)) (r : option str) : Prop := match r with Some x => rc x = None | None => True end.
Lemma emit_text p lo hi content : exists t, emit p lo hi content = Text t.
Proof. pose proof (emit_safe p lo hi content) as H. unfold emit, result in *. cbv zeta in *. destruct (w_oob _); [contradiction|eauto]. Qed.
Lemma extract_loops rc content sp : extract_lines rc content sp = Loops <->
  regex_range sp = true /\ dead rc (regex_start sp) /\ dead rc (regex_end sp) /\ prefix sp <> None.
Proof.
  unfold extract_lines. cbv zeta. destruct (regex_range sp) eqn:R.
  - rewrite andb_false_r. unfold dead.
    assert (A : forall r, match r with Some x => rc x = None | None => True end <-> match r with Some x => rc x | None => None end = None).
    { intros [x|]; [tauto|]. split; auto. }
    rewrite (A (regex_start sp)), (A (regex_end sp)).
    destruct (match regex_start sp with Some x => rc x | None => None end) as [ms|];
    destruct (match regex_end sp with Some x => rc x | None => None end) as [me|].
    4: { destruct (prefix sp); split.
         - intros _. repeat split. discriminate.
         - reflexivity.
         - discriminate.
         - intros H. exfalso. apply (proj2 (proj2 (proj2 H))). reflexivity. }
    all: match goal with |- context [find_range ?a ?b 1 None ?l] => destruct (find_range a b 1 None l) as [[f|] s] end.
    all: split; [|intros (_ & H1 & H2 & _); discriminate].
    all: try discriminate.
    all: match goal with |- emit ?p ?a ?b ?c = _ -> _ => destruct (emit_text p a b c) as [t ->]; discriminate end.
  - split; [|intros [H _]; discriminate]. destruct (line_range sp); cbn [negb andb].
    + destruct (_ || _); [discriminate|]. destruct (_ <? _)%Z; [discriminate|].
      match goal with |- emit ?p ?a ?b ?c = _ -> _ => destruct (emit_text p a b c) as [t ->]; discriminate end.
    + destruct (prefix sp) as [p|]; [|discriminate]. destruct (lines_some content) as (ls & tail & HL).
      rewrite (prefix_all_spec p _ _ _ HL). discriminate.
Qed.

(** * Patterns *)
Lemma first_cons_no m n k l r j : (k <= n -> m l = false) -> First m (S n) k r j -> First m n k (l :: r) j.
Proof.
  intros N. destruct j as [j|]; cbn [First].
  - intros (t & x & -> & K1 & K2 & K3 & K4). exists (S t), x. split; [lia|]. split; [lia|]. split; [exact K2|]. split; [exact K3|].
    intros [|t'] l' T1 T2 T3; [cbn in T3; injection T3 as <-; apply N; lia|]. apply (K4 t'); [lia|lia|exact T3].
  - intros K [|t] x T1 T2; [cbn in T2; injection T2 as <-; apply N; lia|]. apply (K t x); [lia|exact T2].
Qed.
Lemma first_cons_yes m n k l r : k <= n -> m l = true -> First m n k (l :: r) (Some n).
Proof. intros K M. exists 0, l. split; [lia|]. split; [exact K|]. split; [reflexivity|]. split; [exact M|]. intros t' l' T. lia. Qed.
Definition stop_at (me : option (str -> bool)) n k ls (r : option nat) : Prop :=
  match me with Some m => First m n k ls r | None => r = None end.
Lemma find_after ms me ls : forall n found, (ms = None \/ found <> None) ->
  exists r, find_range ms me n found ls = (found, r) /\ stop_at me n 0 ls r.
Proof.
  induction ls as [|l ls IH]; intros n found H.
  - exists None. split; [reflexivity|]. destruct me as [m|]; cbn; [|reflexivity]. intros [|t] x; discriminate.
  - cbn [find_range]. assert (E : match ms, found with Some m, None => if m l then Some n else None | _, _ => found end = found).
    { destruct ms as [m|]; [|reflexivity]. destruct found; [reflexivity|]. destruct H; [discriminate|contradiction]. }
    rewrite E. clear E. destruct (IH (S n) found H) as (r & -> & S1). destruct me as [m|]; [|eauto].
    replace (match ms with Some _ => match found with Some _ => true | None => false end | None => true end) with true
      by (destruct ms; [destruct found; [reflexivity|destruct H; [discriminate|contradiction]]|reflexivity]).
    cbn [andb]. destruct (m l) eqn:M.
    + exists (Some n). split; [reflexivity|]. apply first_cons_yes; [lia|exact M].
    + exists r. split; [reflexivity|]. apply first_cons_no; [auto|exact S1].
Qed.
Lemma stop_low me n k ls r : k <= n -> stop_at me n 0 ls r -> stop_at me n k ls r.
Proof.
  intros K. destruct me as [m|]; [|auto]. cbn [stop_at]. destruct r as [j|]; cbn [First].
  - intros (t & x & -> & _ & K2 & K3 & K4). exists t, x. split; [reflexivity|]. split; [lia|]. split; [exact K2|]. split; [exact K3|].
    intros t' l' T1 T2 T3. apply (K4 t'); [lia|lia|exact T3].
  - intros H t x _ T. apply (H t x); [lia|exact T].
Qed.
Lemma find_start m me ls : forall n, exists f r, find_range (Some m) me n None ls = (f, r) /\ First m n 0 ls f /\
  match f with Some i => n <= i /\ stop_at me n i ls r | None => True end.
Proof.
  induction ls as [|l ls IH]; intros n.
  - exists None, None. split; [reflexivity|]. split; [intros [|t] x; discriminate|exact I].
  - cbn [find_range]. destruct (m l) eqn:M.
    + destruct (find_after (Some m) me (l :: ls) n (Some n)) as (r & E & S1); [right; discriminate|].
      cbn [find_range] in E. rewrite E. exists (Some n), r. split; [reflexivity|]. split; [apply first_cons_yes; [lia|exact M]|].
      split; [lia|]. apply stop_low; [lia|exact S1].
    + destruct (IH (S n)) as (f & r & E & F & K). cbn [andb]. exists f, r. split; [destruct me; exact E|].
      split; [apply first_cons_no; [auto|exact F]|]. destruct f as [i|]; [|exact I]. destruct K as [K1 K2]. split; [lia|].
      destruct me as [me|]; [|exact K2]. apply first_cons_no; [lia|exact K2].
Qed.
Lemma first_bound m n k ls j : First m n k ls (Some j) -> j < n + length ls.
Proof. intros (t & x & -> & _ & H & _). assert (t < length ls) by (apply nth_error_Some; congruence). lia. Qed.
Lemma first_fun m n k ls a b : First m n k ls a -> First m n k ls b -> a = b.
Proof.
  destruct a as [a|], b as [b|]; cbn [First].
  - intros (t & x & -> & A1 & A2 & A3 & A4) (u & y & -> & B1 & B2 & B3 & B4). destruct (lt_eq_lt_dec t u) as [[L| ->]|L]; [|reflexivity|].
    + pose proof (B4 t x L A1 A2). congruence.
    + pose proof (A4 u y L B1 B2). congruence.
  - intros (t & x & -> & A1 & A2 & A3 & A4) H. pose proof (H t x A1 A2). congruence.
  - intros H (t & x & -> & A1 & A2 & A3 & A4). pose proof (H t x A1 A2). congruence.
  - reflexivity.
Qed.
Lemma all_lines_length ls tail : length (all_lines ls tail) <= S (length ls).
Proof. unfold all_lines. rewrite app_length. destruct tail; cbn; lia. Qed.
(** Both patterns compile, the first matches. *)
Lemma both_spec rc content ls tail a b ms me p i j : Lines content ls tail -> rc a = Some ms -> rc b = Some me ->
  First ms 1 0 (all_lines ls tail) (Some i) -> First me 1 i (all_lines ls tail) j ->
  let hi := match j with Some j => j | None => S (length ls) end in
  length (prefix_text p) * length (pick i hi ls) <= 924 ->
  extract_lines rc content (Spec false true 0 0 (Some a) (Some b) p) = Text (text (prefix_text p) (pick i hi ls)).
Proof.
  intros HL Ha Hb Hi Hj hi B. unfold extract_lines. cbv zeta. cbn [line_range regex_range negb andb regex_start regex_end prefix].
  rewrite Ha, Hb. rewrite (lines_count _ _ _ HL), (lines_lines _ _ _ HL).
  destruct (find_start ms (Some me) (all_lines ls tail) 1) as (f & r & E & F & K). rewrite E.
  pose proof (first_fun _ _ _ _ _ _ F Hi) as ->. destruct K as [K1 K2]. pose proof (first_fun _ _ _ _ _ _ K2 Hj) as ->.
  fold hi. apply (emit_spec p i hi content ls tail HL); [exact K1| |exact B].
  unfold hi. destruct j as [j|]; [|lia]. pose proof (first_bound _ _ _ _ _ Hj). pose proof (all_lines_length ls tail). lia.
Qed.
Lemma none_spec rc content ls tail a b ms p : Lines content ls tail -> rc a = Some ms ->
  First ms 1 0 (all_lines ls tail) None ->
  extract_lines rc content (Spec false true 0 0 (Some a) b p) = Text [].
Proof.
  intros HL Ha Hi. unfold extract_lines. cbv zeta. cbn [line_range regex_range negb andb regex_start regex_end prefix].
  rewrite Ha. rewrite (lines_count _ _ _ HL), (lines_lines _ _ _ HL).
  destruct (find_start ms (match b with Some x => rc x | None => None end) (all_lines ls tail) 1) as (f & r & E & F & K).
  pose proof (first_fun _ _ _ _ _ _ F Hi) as ->. destruct (match b with Some x => rc x | None => None end); rewrite E; reflexivity.
Qed.

(** * Reading addresses *)
Lemma skip_nonspace c s : isspace c = false -> skip_ws (c :: s) = c :: s.
Proof. intros H. unfold skip_ws. cbn [span]. rewrite H. reflexivity. Qed.
Lemma digit_facts : forall c, isdigit c = true -> isspace c = false /\ ceq c "-"%char = false /\ ceq c "+"%char = false /\
  ceq c "/"%char = false /\ ceq c ";"%char = false /\ ceq "p"%char c = false /\ ceq c ","%char = false.
Proof.
  assert (H : forallb (fun c => negb (isdigit c) || (negb (isspace c) && negb (ceq c "-"%char) && negb (ceq c "+"%char) &&
    negb (ceq c "/"%char) && negb (ceq c ";"%char) && negb (ceq "p"%char c) && negb (ceq c ","%char))) all_bytes = true) by (vm_compute; reflexivity).
  intros c D. pose proof (byte_forall _ H c) as K. cbv beta in K. rewrite D in K. cbn [negb orb] in K. rewrite !andb_true_iff, !negb_true_iff in K. tauto.
Qed.
Definition stopped (r : str) : Prop := match r with [] => True | c :: _ => isdigit c = false end.
Lemma span_stopped ds r : forallb isdigit ds = true -> stopped r -> span isdigit (ds ++ r) = (ds, r).
Proof.
  intros H K. destruct r as [|c r]; [rewrite app_nil_r; clear K; induction ds as [|d ds IH]; [reflexivity|]; cbn in *; apply andb_true_iff in H as [H1 H2]; rewrite H1, (IH H2); reflexivity|]. apply span_digits_stop; assumption.
Qed.
Lemma dec_head n : exists d ds, dec n = d :: ds /\ isdigit d = true.
Proof. destruct (dec_all_digits n) as [N D]. destruct (dec n) as [|d ds]; [contradiction|]. cbn in D. apply andb_true_iff in D. exists d, ds. tauto. Qed.
Lemma strtol_dec n r : stopped r -> (Z.of_nat n < 2 ^ 31)%Z -> strtol (dec n ++ r) = Some (Z.of_nat n, r).
Proof.
  intros K B. unfold strtol. destruct (dec_all_digits n) as [N D]. pose proof (dec_value n) as V.
  destruct (dec_head n) as (d & ds & E & Dd). destruct (digit_facts d Dd) as (F1 & F2 & F3 & _).
  rewrite E in *. cbn [app]. rewrite (skip_nonspace d _ F1). cbv zeta. rewrite F2, F3.
  change (d :: ds ++ r) with ((d :: ds) ++ r). rewrite (span_stopped _ _ D K). rewrite V. do 2 f_equal.
  rewrite Z.min_l by lia. unfold to_int. rewrite Z.mod_small by lia. lia.
Qed.
Lemma skip_digits n r : skip_ws (dec n ++ r) = dec n ++ r.
Proof.
  destruct (dec_head n) as (d & ds & E & Dd). destruct (digit_facts d Dd) as (F1 & _). rewrite E. cbn [app]. apply skip_nonspace. exact F1.
Qed.
Lemma quoted_digits n r : quoted_prefix (dec n ++ r) = None.
Proof.
  destruct (dec_head n) as (d & ds & E & Dd). destruct (digit_facts d Dd) as (_ & _ & _ & _ & _ & F & _). rewrite E. unfold quoted_prefix. cbn [app B list_ascii_of_string starts].
  rewrite F. reflexivity.
Qed.
Lemma parse_digits n r : parse_address_spec (dec n ++ r) = Some (parse_lines (dec n ++ r)).
Proof.
  unfold parse_address_spec. rewrite skip_digits, quoted_digits. destruct (dec_head n) as (d & ds & E & Dd).
  destruct (digit_facts d Dd) as (_ & _ & _ & F & _). rewrite E. cbn [app]. rewrite F. reflexivity.
Qed.
Lemma quoted_read p : ~ In DQ p -> quoted_prefix (B "prefix=" ++ [DQ] ++ p ++ [DQ]) = Some (Some p).
Proof.
  intros H. unfold quoted_prefix. rewrite app_assoc, starts_app.
  change (skipn 8 ((B "prefix=" ++ [DQ]) ++ p ++ [DQ])) with (p ++ [DQ]).
  assert (E : strchr DQ (p ++ [DQ]) = Some (length p)).
  { apply strchr_some. exists p, []. auto. }
  rewrite E, firstn_app, firstn_all, Nat.sub_diag. cbn [firstn]. rewrite app_nil_r. reflexivity.
Qed.
Lemma trailing_read p : prefix_fine p -> trailing_prefix (with_prefix p) = p.
Proof.
  destruct p as [p|]; [|reflexivity]. intros H. cbn [prefix_fine] in H. unfold with_prefix, trailing_prefix.
  change (B ";prefix=" ++ [DQ] ++ p ++ [DQ]) with (";"%char :: "p"%char :: B "refix=" ++ [DQ] ++ p ++ [DQ]).
  rewrite skip_nonspace by reflexivity. change (ceq ";"%char ";"%char) with true. cbv iota. rewrite skip_nonspace by reflexivity.
  change ("p"%char :: B "refix=" ++ [DQ] ++ p ++ [DQ]) with (B "prefix=" ++ [DQ] ++ p ++ [DQ]). rewrite (quoted_read p H). reflexivity.
Qed.
Lemma with_stopped p : stopped (with_prefix p).
Proof. destruct p; [reflexivity|exact I]. Qed.
Lemma parse_range n m p : 1 <= n <= m -> (Z.of_nat m < 2 ^ 31)%Z -> prefix_fine p ->
  parse_address_spec (range_address n m p) = Some (Spec true false (Z.of_nat n) (Z.of_nat m) None None p).
Proof.
  intros H Bd F. unfold range_address. rewrite parse_digits. unfold parse_lines.
  rewrite strtol_dec; [|reflexivity|lia]. replace (Z.of_nat n <? 1)%Z with false by lia.
  change (B "," ++ dec m ++ with_prefix p) with (","%char :: dec m ++ with_prefix p). rewrite skip_nonspace by reflexivity.
  change (ceq ","%char ","%char) with true. cbv iota zeta. rewrite skip_digits.
  rewrite strtol_dec; [|apply with_stopped|exact Bd]. replace (Z.of_nat m <? Z.of_nat n)%Z with false by lia. rewrite (trailing_read p F).
  destruct (dec_head m) as (d & ds & E & Dd). destruct (digit_facts d Dd) as (_ & _ & _ & _ & F5 & _). rewrite E. cbn [app is_end]. rewrite F5. reflexivity.
Qed.
Lemma parse_open n p : 1 <= n -> (Z.of_nat n < 2 ^ 31)%Z -> prefix_fine p ->
  parse_address_spec (open_address n p) = Some (Spec true false (Z.of_nat n) (-1) None None p).
Proof.
  intros H Bd F. unfold open_address. rewrite parse_digits. unfold parse_lines.
  rewrite strtol_dec; [|reflexivity|exact Bd]. replace (Z.of_nat n <? 1)%Z with false by lia.
  change (B "," ++ with_prefix p) with (","%char :: with_prefix p). rewrite skip_nonspace by reflexivity.
  change (ceq ","%char ","%char) with true. cbv iota zeta.
  assert (E : skip_ws (with_prefix p) = with_prefix p) by (destruct p; reflexivity). rewrite E.
  replace (is_end (with_prefix p)) with true by (destruct p; reflexivity). rewrite (trailing_read p F). reflexivity.
Qed.
Lemma parse_line n p : 1 <= n -> (Z.of_nat n < 2 ^ 31)%Z -> prefix_fine p ->
  parse_address_spec (line_address n p) = Some (Spec true false (Z.of_nat n) (Z.of_nat n) None None p).
Proof.
  intros H Bd F. unfold line_address. rewrite parse_digits. unfold parse_lines.
  rewrite strtol_dec; [|apply with_stopped|exact Bd]. replace (Z.of_nat n <? 1)%Z with false by lia.
  pose proof (trailing_read p F) as T. destruct p as [p|]; [|reflexivity].
  unfold with_prefix in *. change (B ";prefix=" ++ [DQ] ++ p ++ [DQ]) with (";"%char :: B "prefix=" ++ [DQ] ++ p ++ [DQ]) in *.
  rewrite skip_nonspace by reflexivity. change (ceq ";"%char ","%char) with false. cbv iota. rewrite T. reflexivity.
Qed.
Lemma parse_prefix p : ~ In DQ p -> parse_address_spec (prefix_address p) = Some (Spec false false 0 0 None None (Some p)).
Proof.
  intros H. unfold parse_address_spec, prefix_address. pose proof (quoted_read p H) as Q.
  assert (E : skip_ws (B "prefix=" ++ [DQ] ++ p ++ [DQ]) = B "prefix=" ++ [DQ] ++ p ++ [DQ]) by reflexivity.
  rewrite E, Q. reflexivity.
Qed.
Lemma strchr_plain c a r : ~ In c a -> strchr c (a ++ c :: r) = Some (length a).
Proof.
  intros H. apply strchr_some. exists a, r. auto.
Qed.
Lemma firstn_plain (a r : str) : firstn (length a) (a ++ r) = a.
Proof. rewrite firstn_app, firstn_all, Nat.sub_diag. cbn. apply app_nil_r. Qed.
Lemma skipn_plain (a : str) c r : skipn (S (length a)) (a ++ c :: r) = r.
Proof. induction a as [|x a IH]; [reflexivity|exact IH]. Qed.
Lemma parse_pattern a b p : ~ In "/"%char a -> ~ In "/"%char b -> prefix_fine p ->
  parse_address_spec (pattern_address a b p) = Some (Spec false true 0 0 (Some a) (Some b) p).
Proof.
  intros Ha Hb F. unfold parse_address_spec, pattern_address.
  change (B "/" ++ a ++ B "/,/" ++ b ++ B "/" ++ with_prefix p) with ("/"%char :: a ++ "/"%char :: ","%char :: "/"%char :: b ++ "/"%char :: with_prefix p).
  rewrite skip_nonspace by reflexivity. cbn [quoted_prefix]. unfold quoted_prefix. cbn [starts B list_ascii_of_string app].
  change (ceq "p"%char "/"%char) with false. cbn [andb]. cbv iota. change (ceq "/"%char "/"%char) with true. cbv iota. unfold parse_regex. cbn [tl].
  rewrite (strchr_plain "/"%char a _ Ha), firstn_plain, skipn_plain. cbv zeta. cbn [span]. change (isspace ","%char || ceq ","%char ","%char) with true. cbv iota.
  change (isspace "/"%char || ceq "/"%char ","%char) with false. cbv iota. cbn [snd]. change (ceq "/"%char "/"%char) with true. cbv iota.
  rewrite (strchr_plain "/"%char b _ Hb), firstn_plain, skipn_plain, (trailing_read p F). reflexivity.
Qed.

(** * When the last line is lost *)
Lemma text_app p a b : text p (a ++ b) = text p a ++ text p b.
Proof. unfold text. rewrite map_app, concat_app. reflexivity. Qed.
Lemma text_same p (a b : list str) : text p (a ++ b) = text p a -> b = [].
Proof.
  rewrite text_app. intros H. apply (f_equal (@length ascii)) in H. rewrite app_length in H. destruct b as [|x b]; [reflexivity|].
  unfold text in H at 2. cbn [map concat] in H. rewrite !app_length in H. cbn [length] in H. lia.
Qed.
Lemma from_all n ls tail : 1 <= n <= S (length ls) -> from n (all_lines ls tail) = from n ls ++ match tail with [] => [] | _ => [tail] end.
Proof.
  intros H. unfold from, all_lines. rewrite skipn_app. replace (n - 1 - length ls) with 0 by lia. reflexivity.
Qed.
Lemma from_beyond n ls tail : S (length ls) < n -> from n (all_lines ls tail) = [] /\ from n ls = [].
Proof. intros H. pose proof (all_lines_length ls tail). unfold from. rewrite !skipn_all2 by lia. auto. Qed.
Lemma open_iff p n ls tail : 1 <= n ->
  (text p (from n ls) = text p (from n (all_lines ls tail)) <-> tail = [] \/ S (length ls) < n).
Proof.
  intros H. destruct (le_lt_dec n (S (length ls))) as [L|L].
  - rewrite from_all by lia. split.
    + intros E. left. symmetry in E. apply text_same in E. destruct tail; [reflexivity|discriminate].
    + intros [-> |K]; [rewrite app_nil_r; reflexivity|lia].
  - destruct (from_beyond n ls tail L) as [-> ->]. split; auto.
Qed.
Lemma range_iff p n m ls tail : 1 <= n ->
  (text p (pick n m ls) = text p (pick n m (all_lines ls tail)) <-> tail = [] \/ m <= S (length ls) \/ S (length ls) < n).
Proof.
  intros H. destruct (le_lt_dec m (S (length ls))) as [L|L].
  - rewrite pick_short by assumption. split; auto.
  - pose proof (all_lines_length ls tail). rewrite !pick_over by lia. rewrite open_iff by exact H. split.
    + intros [K|K]; auto.
    + intros [K|[K|K]]; auto. lia.
Qed.
Lemma regex_has_start s sp : parse_address_spec s = Some sp -> regex_range sp = true -> regex_start sp <> None.
Proof.
  unfold parse_address_spec. destruct s as [|c0 s0]; [discriminate|].
  destruct (quoted_prefix _) as [p|]; [intros E R; injection E as <-; discriminate|].
  assert (K : forall q sp', Some (parse_lines q) = Some sp' -> regex_range sp' = true -> False).
  { intros q sp' E R. injection E as <-. unfold parse_lines in R. destruct (strtol q) as [[z r]|]; [|discriminate]. destruct (_ <? _)%Z; [discriminate|].
    destruct (skip_ws r) as [|c r1]; [discriminate|]. destruct (ceq c _); [|discriminate]. cbv zeta in R. destruct (is_end _); [discriminate|].
    destruct (strtol _) as [[z' r']|]; discriminate. }
  destruct (skip_ws (c0 :: s0)) as [|c r]; [intros E R; destruct (K _ _ E R)|].
  destruct (ceq c "/"%char); [|intros E R; destruct (K _ _ E R)].
  unfold parse_regex. cbn [tl]. destruct (strchr _ r) as [k|]; [|discriminate]. cbv zeta.
  destruct (match snd (span _ (skipn (S k) r)) with [] => _ | _ => _ end) as [e rest]. intros E _. injection E as <-. discriminate.
Qed.
Lemma part_loops rc a content : part rc a content = Loops <-> exists sp, parse_address_spec a = Some sp /\
  regex_range sp = true /\ dead rc (regex_start sp) /\ dead rc (regex_end sp) /\ prefix sp <> None.
Proof.
  unfold part. destruct (parse_address_spec a) as [sp|].
  - rewrite extract_loops. split; [intros H; exists sp; auto|]. intros (sp' & E & H). injection E as <-. exact H.
  - split; [discriminate|]. intros (sp' & E & H). discriminate.
Qed.
Lemma part_ends rc a content : (forall x, rc x <> None) -> part rc a content <> Loops.
Proof.
  intros H E. apply part_loops in E as (sp & E & R & D & _). pose proof (regex_has_start _ _ E R) as N.
  destruct (regex_start sp) as [x|]; [|contradiction]. exact (H x D).
Qed.
Lemma part_safe rc a content : part rc a content <> Bad.
Proof. unfold part. destruct (parse_address_spec a); [apply extract_safe|discriminate]. Qed.

(** * Addresses and files *)
Lemma range_part rc content ls tail n m p :
  Lines content ls tail -> 1 <= n <= m -> (Z.of_nat m < 2 ^ 31)%Z -> prefix_fine p ->
  length (prefix_text p) * length (pick n m ls) <= 924 ->
  part rc (range_address n m p) content = Text (text (prefix_text p) (pick n m ls)) /\
  (part rc (range_address n m p) content = Text (text (prefix_text p) (pick n m (all_lines ls tail))) <->
   tail = [] \/ m <= S (length ls) \/ S (length ls) < n).
Proof.
  intros HL H Bd F G. assert (E : part rc (range_address n m p) content = Text (text (prefix_text p) (pick n m ls))).
  { unfold part. rewrite (parse_range n m p H Bd F). apply (range_spec rc content ls tail n m p HL H G). }
  split; [exact E|]. rewrite E, <- (range_iff (prefix_text p) n m ls tail (proj1 H)). split; [intros K; injection K; auto|intros ->; reflexivity].
Qed.
Lemma open_part rc content ls tail n p :
  Lines content ls tail -> 1 <= n -> (Z.of_nat n < 2 ^ 31)%Z -> prefix_fine p ->
  length (prefix_text p) * length (from n ls) <= 924 ->
  part rc (open_address n p) content = Text (text (prefix_text p) (from n ls)) /\
  (part rc (open_address n p) content = Text (text (prefix_text p) (from n (all_lines ls tail))) <-> tail = [] \/ S (length ls) < n).
Proof.
  intros HL H Bd F G. assert (E : part rc (open_address n p) content = Text (text (prefix_text p) (from n ls))).
  { unfold part. rewrite (parse_open n p H Bd F). apply (open_spec rc content ls tail n p HL H G). }
  split; [exact E|]. rewrite E, <- (open_iff (prefix_text p) n ls tail H). split; [intros K; injection K; auto|intros ->; reflexivity].
Qed.
Lemma line_part rc content n p : 1 <= n -> (Z.of_nat n < 2 ^ 31)%Z -> prefix_fine p -> part rc (line_address n p) content = Text [].
Proof.
  intros H Bd F. destruct (lines_some content) as (ls & tail & HL). unfold part. rewrite (parse_line n p H Bd F).
  assert (E : pick n n ls = []) by (unfold pick; rewrite Nat.sub_diag; reflexivity).
  rewrite (range_spec rc content ls tail n n p HL); [rewrite E; reflexivity|lia|rewrite E; cbn; lia].
Qed.
Lemma single_part rc content ls tail n l :
  Lines content ls tail -> (Z.of_nat (S (S n)) < 2 ^ 31)%Z -> nth_error ls n = Some l ->
  part rc (range_address (S n) (S (S n)) None) content = Text (l ++ [NL]).
Proof.
  intros HL Bd E. destruct (range_part rc content ls tail (S n) (S (S n)) None HL) as [K _]; [lia|exact Bd|exact I|cbn; lia|].
  rewrite K. unfold pick. replace (S (S n) - S n) with 1 by lia. replace (S n - 1) with n by lia.
  apply nth_error_split in E as (a & b & -> & <-). rewrite skipn_app, skipn_all, Nat.sub_diag. cbn. rewrite app_nil_r. reflexivity.
Qed.
Lemma prefix_part rc content ls tail p : Lines content ls tail -> ~ In DQ p ->
  part rc (prefix_address p) content = Text (concat (map (fun l => marked p l ++ [NL]) ls) ++ marked p tail).
Proof. intros HL H. unfold part. rewrite (parse_prefix p H). apply (prefix_all_spec p content ls tail HL). Qed.
Lemma pattern_part :
  (forall rc content ls tail a b ms me p i j,
    Lines content ls tail -> ~ In "/"%char a -> ~ In "/"%char b -> prefix_fine p -> rc a = Some ms -> rc b = Some me ->
    First ms 1 0 (all_lines ls tail) (Some i) -> First me 1 i (all_lines ls tail) j ->
    length (prefix_text p) * length (match j with Some j => pick i j ls | None => from i ls end) <= 924 ->
    part rc (pattern_address a b p) content =
    Text (text (prefix_text p) (match j with Some j => pick i j (all_lines ls tail) | None => from i ls end))) /\
  (forall rc content ls tail a b ms p,
    Lines content ls tail -> ~ In "/"%char a -> ~ In "/"%char b -> prefix_fine p -> rc a = Some ms ->
    First ms 1 0 (all_lines ls tail) None -> part rc (pattern_address a b p) content = Text []).
Proof.
  split.
  - intros rc content ls tail a b ms me p i j HL Ha Hb F Ra Rb Hi Hj G. unfold part. rewrite (parse_pattern a b p Ha Hb F).
    assert (I1 : 1 <= i) by (destruct Hi as (t & x & -> & _); lia).
    rewrite (both_spec rc content ls tail a b ms me p i j HL Ra Rb Hi Hj); destruct j as [j|].
    + rewrite pick_short; [reflexivity|exact I1|]. pose proof (first_bound _ _ _ _ _ Hj). pose proof (all_lines_length ls tail). lia.
    + rewrite pick_over by lia. reflexivity.
    + exact G.
    + rewrite pick_over by lia. exact G.
  - intros rc content ls tail a b ms p HL Ha Hb F Ra Hi. unfold part. rewrite (parse_pattern a b p Ha Hb F).
    apply (none_spec rc content ls tail a (Some b) ms p HL Ra Hi).
Qed.
