(** Proofs about the expansion of [%key] references. *)
From Verif Require Import Base BaseL Dec M_Encode M_Meta M_Trans S_Trans L_Meta L_MetaParse L_Trans.

(** Texts that close [d + 1] brackets at their end, the last one left out. *)
Fixpoint nested (d : nat) (s : str) : Prop :=
  match d with
  | 0 => balanced s
  | S d => exists b y, s = b ++ "]"%char :: y /\ balanced b /\ nested d y
  end.

Lemma nested_byte d c s : c <> "["%char -> c <> "]"%char -> nested d s -> nested d (c :: s).
Proof.
  intros N1 N2. destruct d as [|d]; cbn [nested].
  - apply bal_byte; assumption.
  - intros (b & y & -> & Hb & Hy). exists (c :: b), y. split; [reflexivity|].
    split; [apply bal_byte; assumption|exact Hy].
Qed.

Lemma nested_open d s : nested (S d) s -> nested d ("["%char :: s).
Proof.
  intros (b & y & -> & Hb & Hy). destruct d as [|d]; cbn [nested] in *.
  - apply bal_nest; assumption.
  - destruct Hy as (b1 & z & -> & Hb1 & Hz). exists ("["%char :: b ++ "]"%char :: b1), z.
    split; [cbn [app]; rewrite <- app_assoc; reflexivity|]. split; [apply bal_nest; assumption|exact Hz].
Qed.

Lemma close_nested s : forall d n, close_at (S d) s = Some n ->
  nested d (firstn n s) /\ exists r, skipn n s = "]"%char :: r.
Proof.
  induction s as [|c s IH]; intros d n H; [discriminate|]. cbn [close_at] in H.
  destruct (ceq c "[") eqn:E1.
  - apply ceq_eq in E1. subst c. destruct (close_at (S (S d)) s) as [m|] eqn:E; [|discriminate].
    injection H as <-. destruct (IH _ _ E) as [H1 [r H2]]. cbn [firstn skipn]. split; [apply nested_open, H1|eauto].
  - apply ceq_neq in E1. destruct (ceq c "]") eqn:E2.
    + apply ceq_eq in E2. subst c. destruct d as [|d].
      * injection H as <-. cbn. split; [constructor|eauto].
      * destruct (close_at (S d) s) as [m|] eqn:E; [|discriminate]. injection H as <-.
        destruct (IH _ _ E) as [H1 [r H2]]. cbn [firstn skipn]. split; [|eauto].
        cbn [nested]. exists [], (firstn m s). split; [reflexivity|]. split; [constructor|exact H1].
    + apply ceq_neq in E2. destruct (close_at (S d) s) as [m|] eqn:E; [|discriminate]. injection H as <-.
      destruct (IH _ _ E) as [H1 [r H2]]. cbn [firstn skipn]. split; [|eauto]. apply nested_byte; assumption.
Qed.

Lemma close_balanced b : balanced b -> forall d s,
  close_at (S d) (b ++ s) = option_map (fun n => length b + n) (close_at (S d) s).
Proof.
  induction 1 as [|c b N1 N2 _ IH|a b _ IHa _ IHb]; intros d s.
  - cbn. destruct (close_at (S d) s); reflexivity.
  - cbn [app close_at length]. rewrite (proj2 (ceq_neq _ _) N1), (proj2 (ceq_neq _ _) N2), IH.
    destruct (close_at (S d) s); reflexivity.
  - cbn [app close_at]. change (ceq "[" "[") with true. cbv iota.
    rewrite <- app_assoc, IHa. cbn [app close_at]. change (ceq "]" "[") with false.
    change (ceq "]" "]") with true. cbv iota. rewrite IHb.
    destruct (close_at (S d) s); cbn [option_map]; [|reflexivity]. f_equal. cbn [length].
    rewrite app_length. cbn [length]. lia.
Qed.

Lemma close_here b r : balanced b -> close_at 1 (b ++ "]"%char :: r) = Some (length b).
Proof. intros H. rewrite close_balanced by exact H. cbn. f_equal. lia. Qed.

Lemma close_some s n :
  close_at 1 s = Some n ->
  exists b r, s = b ++ "]"%char :: r /\ balanced b /\ length b = n.
Proof.
  intros H. destruct (close_nested _ _ _ H) as [H1 [r H2]]. exists (firstn n s), r.
  split; [rewrite <- H2; symmetry; apply firstn_skipn|]. split; [exact H1|].
  apply firstn_length_le. destruct (Nat.le_gt_cases n (length s)) as [L|L]; [exact L|].
  rewrite skipn_all2 in H2 by lia. discriminate.
Qed.

Lemma close_none s : close_at 1 s = None -> forall b z, s = b ++ "]"%char :: z -> ~ balanced b.
Proof. intros H b z -> Hb. rewrite close_here in H by exact Hb. discriminate. Qed.

(** Growing writes always fit. *)
Lemma append_ok s w : fits w -> fits (append s w) /\ w_out (append s w) = w_out w ++ s /\
  length (w_out (append s w)) < w_cap (append s w).
Proof.
  intros [F1 F2]. unfold append, room.
  destruct (Nat.ltb_spec (w_cap w) (length (w_out w) + length s + 1)) as [L|L].
  - split; [|split; [reflexivity|]].
    + apply store_fits; [split; cbn [w_oob w_out w_cap]; [exact F1|lia]|]. cbn [w_oob w_out w_cap]. lia.
    + cbn [w_store w_out w_cap]. rewrite app_length. lia.
  - split; [|split; [reflexivity|]].
    + apply store_fits; [split; assumption|lia].
    + cbn [w_store w_out w_cap]. rewrite app_length. lia.
Qed.

Lemma finish_ok s w : fits w -> length (w_out w) < w_cap w ->
  fits (finish_vars s w) /\ w_out (finish_vars s w) = w_out w ++ s.
Proof.
  intros F L. unfold finish_vars. destruct s as [|c s].
  - rewrite app_nil_r. split; [apply term_fits; assumption|reflexivity].
  - set (S := c :: s). set (w1 := if _ <? _ then _ else w).
    assert (F1 : fits w1 /\ w_out w1 = w_out w /\ length (w_out w) + length S + 1 <= w_cap w1).
    { unfold w1. destruct (Nat.ltb_spec (w_cap w) (length (w_out w) + length S + 1)) as [X|X].
      - split; [|split; [reflexivity|cbn; lia]]. destruct F as [Fa Fb]. split; cbn [w_oob w_out w_cap]; [exact Fa|lia].
      - split; [exact F|]. split; [reflexivity|exact X]. }
    destruct F1 as (F1 & F2 & F3). split.
    + apply term_fits; [apply store_fits; [exact F1|rewrite F2; lia]|].
      cbn [w_store w_out w_cap]. rewrite app_length, F2. lia.
    + cbn [w_term w_store w_out]. rewrite F2. reflexivity.
Qed.

Definition as_option (r : res) : option str := match r with Val v => Some v | _ => None end.

Lemma vars_loop_ok fuel value : forall text w,
  length text < fuel -> (forall b, value b <> Bad) -> fits w -> length (w_out w) < w_cap w ->
  exists w1 o, vars_loop fuel value w text = Some w1 /\ fits w1 /\ w_out w1 = w_out w ++ o /\
    expands (fun b => as_option (value b)) text o.
Proof.
  induction fuel as [|fuel IH]; intros text w Lf NB F L; [lia|]. cbn [vars_loop].
  destruct (strstr (B "[%") text) as [i|] eqn:E.
  - pose proof (strstr_split _ _ _ E) as (E1 & E2 & Li). cbn [B list_ascii_of_string length] in E1, E2.
    set (a := firstn i text) in *. set (body := skipn (i + 2) text) in *.
    assert (Lt : length text = i + 2 + length body).
    { rewrite E1, !app_length. cbn [length]. lia. }
    destruct (close_at 1 body) as [n|] eqn:C.
    + destruct (close_some _ _ C) as (b & r & Eb & Hb & Lb).
      assert (Ef : firstn n body = b) by (rewrite Eb, firstn_app, <- Lb, Nat.sub_diag, firstn_all; apply app_nil_r).
      assert (Er : skipn (S n) body = r) by (rewrite Eb, <- Lb; apply skipn_key).
      assert (Ek : firstn (n + 3) (skipn i text) = written_ref b).
      { rewrite E1. rewrite skipn_app. rewrite <- Li, skipn_all, Nat.sub_diag. cbn [app skipn].
        rewrite Eb. replace (n + 3) with (S (S (length b + 1))) by lia. cbn [firstn].
        unfold written_ref. cbn [B list_ascii_of_string app]. f_equal. f_equal.
        rewrite firstn_app. rewrite firstn_all2 by lia. replace (length b + 1 - length b) with 1 by lia.
        reflexivity. }
      rewrite Ef, Er, Ek.
      set (w1 := match i with 0 => w | _ => append a w end).
      assert (W1 : fits w1 /\ w_out w1 = w_out w ++ a /\ length (w_out w1) < w_cap w1).
      { unfold w1. destruct i as [|i].
        - assert (a = []) as -> by (apply length_zero_iff_nil; exact Li). rewrite app_nil_r. auto.
        - apply append_ok, F. }
      destruct W1 as (W1 & W2 & W3).
      assert (Lr : length r < fuel).
      { rewrite Eb, app_length in Lt. cbn [length] in Lt. lia. }
      assert (Step : forall s, s = filled (fun b => as_option (value b)) b ->
        exists w2 o, vars_loop fuel value (append s w1) r = Some w2 /\ fits w2 /\ w_out w2 = w_out w ++ o /\
          expands (fun b => as_option (value b)) text o).
      { intros s Es. destruct (append_ok s w1 W1) as (A1 & A2 & A3).
        destruct (IH r (append s w1) Lr NB A1 A3) as (w2 & o & R1 & R2 & R3 & R4).
        exists w2, (a ++ s ++ o). split; [exact R1|]. split; [exact R2|]. split.
        - rewrite R3, A2, W2, <- !app_assoc. reflexivity.
        - rewrite E1, Es, Eb. rewrite Eb in E2. apply ex_ref; assumption. }
      destruct (Nat.leb_spec 512 n) as [G|G].
      * apply Step. unfold filled. rewrite Lb. destruct (Nat.ltb_spec n 512); [lia|reflexivity].
      * specialize (NB b). destruct (value b) as [v| |] eqn:V; [| |congruence];
          apply Step; unfold filled; rewrite Lb; destruct (Nat.ltb_spec n 512); try lia; rewrite V; reflexivity.
    + destruct (finish_ok text w F L) as [H1 H2]. exists (finish_vars text w), text.
      split; [reflexivity|]. split; [exact H1|]. split; [exact H2|].
      rewrite E1. apply ex_open; [exact E2|]. apply close_none, C.
  - destruct (finish_ok text w F L) as [H1 H2]. exists (finish_vars text w), text.
    split; [reflexivity|]. split; [exact H1|]. split; [exact H2|].
    apply ex_none. apply strstr_none, E.
Qed.

Lemma replace_variables_ok value m text :
  (forall b, value b <> Bad) -> m <> [] ->
  exists w, replace_variables value m text = Some w /\ w_oob w = false /\
    expands (fun b => as_option (value b)) text (w_out w).
Proof.
  intros NB N. unfold replace_variables. destruct m as [|i m]; [congruence|].
  destruct (vars_loop_ok (S (length text)) value text (w_new (length text + 512) 0))
    as (w & o & R1 & R2 & R3 & R4); auto.
  - apply new_fits.
  - cbn [w_new w_out w_cap length]. lia.
  - exists w. split; [exact R1|]. split; [apply R2|]. rewrite R3. exact R4.
Qed.

Lemma replace_variables_none value text :
  exists w, replace_variables value [] text = Some w /\ w_oob w = false /\ w_out w = text.
Proof.
  eexists. split; [reflexivity|].
  assert (F : fits (w_term (w_store text (w_new (length text + 1) 0)))).
  { apply term_fits; [apply store_fits; [apply new_fits|]|]; cbn [w_new w_store w_out w_cap length app]; lia. }
  split; [apply F|reflexivity].
Qed.

(** The expansion is determined. *)
Lemma first_at_fun lit a b a' b' :
  first_at lit a b -> first_at lit a' b' -> a ++ lit ++ b = a' ++ lit ++ b' -> a = a' /\ b = b'.
Proof.
  intros F F' E.
  assert (L : length a = length a') by (apply Nat.le_antisymm; [eapply F, E|eapply F'; symmetry; exact E]).
  destruct (app_len_inj _ _ _ _ L E) as [-> E2]. apply app_inv_head in E2. auto.
Qed.

Lemma expands_fun value t o1 o2 : expands value t o1 -> expands value t o2 -> o1 = o2.
Proof.
  intros H. revert o2. induction H as [t H|a r F H|a b r o F Hb H IH]; intros o2 H2.
  - inversion H2 as [| |a b r o F Hb H3 E]; subst; try reflexivity. exfalso. eapply H; reflexivity.
  - inversion H2 as [|a0 r0 F0 H0 E|a' b r' o F' Hb H3 E]; subst; [reflexivity|symmetry; exact E|]. exfalso.
    destruct (first_at_fun (B "[%") a r a' (b ++ "]"%char :: r') F F') as [-> ->]; [symmetry; exact E|].
    exact (H b r' eq_refl Hb).
  - inversion H2 as [t H3 E|a' r' F' H3 E|a' b' r' o' F' Hb' H3 E]; subst.
    + exfalso. eapply H3; reflexivity.
    + exfalso. destruct (first_at_fun (B "[%") a' r' a (b ++ "]"%char :: r) F' F) as [-> ->]; [exact E|].
      exact (H3 b r eq_refl Hb).
    + destruct (first_at_fun (B "[%") a' (b' ++ "]"%char :: r') a (b ++ "]"%char :: r) F' F) as [-> E2]; [exact E|].
      assert (Eb : length b' = length b).
      { pose proof (close_here b' r' Hb') as C1. rewrite E2, close_here in C1 by exact Hb. congruence. }
      destruct (app_len_inj _ _ _ _ Eb E2) as [-> E3]. injection E3 as ->.
      f_equal. f_equal. apply IH, H3.
Qed.

Lemma var_value_plain L m b : var_value L false m b <> Bad.
Proof. unfold var_value. cbn [andb]. destruct (meta_get m b); discriminate. Qed.
Lemma var_value_get L m b : as_option (var_value L false m b) = meta_get m b.
Proof. unfold var_value. cbn [andb]. destruct (meta_get m b); reflexivity. Qed.

Lemma expands_ext f g t o : (forall b, f b = g b) -> expands f t o -> expands g t o.
Proof.
  intros E H. induction H as [t H|a r F H|a b r o F Hb H IH].
  - apply ex_none, H.
  - apply ex_open; assumption.
  - replace (filled f b) with (filled g b) by (unfold filled; rewrite E; reflexivity).
    apply ex_ref; assumption.
Qed.

Lemma plain_expansion L m text :
  m <> [] ->
  exists w, replace_variables (var_value L false m) m text = Some w /\ w_oob w = false /\
    expands (meta_get m) text (w_out w).
Proof.
  intros N. destruct (replace_variables_ok (var_value L false m) m text) as (w & W1 & W2 & W3); auto.
  - apply var_value_plain.
  - exists w. split; [exact W1|]. split; [exact W2|]. eapply expands_ext; [|exact W3]. apply var_value_get.
Qed.
