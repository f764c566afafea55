(** More lemmas for C167-C178: emoji in text and in HTML. *)
From Verif Require Import Base BaseL L_Csv L_Lines M_Emoji S_Emoji L_Emoji.
Local Arguments isspace : simpl never.
Local Arguments tolower : simpl never.

(** * Names of an emoji *)
Lemma longest_spec u l : forall l0 best,
  match best with None => forall e, In e l0 -> unicode e <> Some u | Some n => Longest l0 u n end ->
  match longest_name u l best with None => forall e, In e (l0 ++ l) -> unicode e <> Some u | Some n => Longest (l0 ++ l) u n end.
Proof.
  induction l as [|e l IH]; intros l0 best H; [rewrite app_nil_r; exact H|]. cbn [longest_name].
  replace (l0 ++ e :: l) with ((l0 ++ [e]) ++ l) by (rewrite <- app_assoc; reflexivity). apply IH. clear IH.
  assert (K : unicode e <> Some u -> match best with None => forall x, In x (l0 ++ [e]) -> unicode x <> Some u | Some n => Longest (l0 ++ [e]) u n end).
  { intros N. destruct best as [n|].
    - destruct H as (l1 & e1 & l2 & -> & U & E & H1 & H2). exists l1, e1, (l2 ++ [e]). split; [rewrite <- app_assoc; reflexivity|].
      repeat (split; [assumption|]). intros e' I V. apply in_app_or in I as [I|[<-|[]]]; [auto|congruence].
    - intros x I. apply in_app_or in I as [I|[<-|[]]]; auto. }
  destruct (unicode e) as [v|] eqn:Ev; [|apply K; discriminate]. destruct (seq_ v u) eqn:Q; [|apply K; intros E; injection E as ->; rewrite (proj2 (seq_eq u u) eq_refl) in Q; discriminate].
  apply seq_eq in Q. subst v. clear K. destruct best as [n|].
  - destruct H as (l1 & e1 & l2 & -> & U & E & H1 & H2). destruct (Nat.ltb_spec (length n) (length (ename e))) as [L|L].
    + exists (l1 ++ e1 :: l2), e, []. repeat (split; [reflexivity || assumption|]). split; [|intros e' []]. intros e' I V. apply in_app_or in I as [I|[<-|I]].
      * specialize (H1 e' I V). lia.
      * rewrite E. exact L.
      * specialize (H2 e' I V). lia.
    + exists l1, e1, (l2 ++ [e]). split; [rewrite <- app_assoc; reflexivity|]. repeat (split; [assumption|]).
      intros e' I V. apply in_app_or in I as [I|[<-|[]]]; auto.
  - exists l0, e, []. repeat (split; [reflexivity || assumption|]). split; [|intros e' []]. intros e' I V. destruct (H e' I V).
Qed.
Lemma find_name table u : u <> [] -> match find_emoji_name table u with Some n => Longest table u n | None => forall e, In e table -> unicode e <> Some u end.
Proof.
  intros Z. unfold find_emoji_name. destruct u as [|c u]; [congruence|]. apply (longest_spec (c :: u) table [] None). intros e [].
Qed.

(** * Emoji in text *)
Lemma in_text_safe table fuel : forall s w, length s < fuel -> w_ok w -> exists w', in_text table fuel s w = Some w' /\ w_ok w' /\ w_cap w' = w_cap w.
Proof.
  induction fuel as [|fuel IH]; intros s w L O; [lia|]. cbn [in_text]. destruct s as [|c r]; [eauto|]. cbn [length] in L. cbv zeta.
  assert (P : exists w', in_text table fuel r (w_put c w) = Some w' /\ w_ok w' /\ w_cap w' = w_cap w).
  { destruct (IH r (w_put c w)) as (w' & E & O' & C); [lia|apply w_put_ok, O|]. exists w'. rewrite w_put_cap in C. auto. }
  destruct (ceq c colon); [|exact P]. destruct (pattern r) as [[n rest]|] eqn:Ep; [|exact P].
  apply pattern_some in Ep as (-> & _ & _ & _). rewrite app_length in L. cbn [length] in L.
  assert (Q : forall x, exists w', in_text table fuel rest (w_puts_le x w) = Some w' /\ w_ok w' /\ w_cap w' = w_cap w).
  { intros x. destruct (IH rest (w_puts_le x w)) as (w' & E & O' & C); [lia|apply w_puts_le_ok, O|]. exists w'. rewrite w_puts_le_cap in C. auto. }
  destruct (has_any _ n); [exact P|]. destruct (table_pattern n); [apply Q|].
  destruct (find_entry table (normalize n)) as [[m [u|] i]|]; [|exact P|exact P]. destruct (length u <=? w_rem w); [apply Q|exact P].
Qed.
Lemma replace_text_safe table text : exists t, replace_text table text = Out t.
Proof.
  unfold replace_text. cbv zeta. destruct (in_text_safe table (S (length text)) text (w_new (length text * 2 + 16) (length text * 2 + 16))) as (w & E & O & C); [lia|apply w_ok_new|].
  rewrite E. rewrite (proj2 O). destruct (0 <? w_rem w) eqn:Q; [|eauto]. apply Nat.ltb_lt in Q.
  unfold finish. cbv zeta. rewrite (proj2 (w_term_safe w O) Q). eauto.
Qed.
Lemma shown_emoji table n u : word (blanks ++ [CR]) n -> Shows table n u -> table_pattern n = false /\ exists m i, find_entry table (normalize n) = Some (Entry m (Some u) i).
Proof.
  intros (Z & L & N & F) (R & e & K & U). rewrite (normalize_key n N), (known_find _ _ _ K). split.
  - destruct (table_pattern n) eqn:T; [|reflexivity]. apply (table_ruler n N) in T. contradiction.
  - destruct e as [m v i]. cbn in U. subst v. eauto.
Qed.
Lemma text_tokens table cap s l : Tokens (text_name table) s l -> forall t, Meaning (Shown table) l t ->
  forall fuel p, length s < fuel -> length (p ++ t) <= cap -> in_text table fuel s (wat cap p) = Some (wat cap (p ++ t)).
Proof.
  induction 1 as [|c s l C H IH|n s l W H IH]; intros t M fuel p Lf Lc; inversion M as [|? ? t' M'|? x ? t' R M']; subst;
    (destruct fuel as [|fuel]; [cbn [length] in Lf; lia|]).
  - rewrite app_nil_r. reflexivity.
  - cbn [length] in Lf. specialize (IH t' M' fuel (p ++ [c])). rewrite <- !app_assoc in IH. cbn [app] in IH.
    assert (P : in_text table fuel s (w_put c (wat cap p)) = Some (wat cap (p ++ c :: t'))).
    { rewrite app_length in Lc. cbn [length] in Lc. rewrite wat_put by lia. apply IH; [lia|rewrite app_length; cbn [length]; lia]. }
    cbn [in_text]. cbv zeta. destruct (ceq c colon) eqn:Ec; [|exact P]. apply ceq_eq in Ec. subst c.
    destruct (pattern s) as [[n rest]|] eqn:Ep; [|exact P]. destruct (has_any [SP; TAB; NL; CR] n) eqn:Q; [exact P|].
    apply pattern_some in Ep as (-> & N & Z & L). apply has_any_false in Q. specialize (C eq_refl n rest eq_refl).
    assert (W : word (blanks ++ [CR]) n) by (split; auto).
    destruct (table_pattern n) eqn:T; [destruct C; split; [exact W|left; apply (table_ruler n N), T]|].
    rewrite (normalize_key n N). pose proof (find_known table (key n)) as K. destruct (find_entry table (key n)) as [[m [u|] i]|]; [|exact P|exact P].
    destruct C. split; [exact W|]. right. exists u. split; [intros X; apply (table_ruler n N) in X; congruence|]. eexists. split; [exact K|reflexivity].
  - destruct W as [W W']. rewrite app_length, between_length in Lf. specialize (IH t' M' fuel (p ++ x)). rewrite <- !app_assoc in IH.
    specialize (IH ltac:(lia) Lc). rewrite !app_length in Lc.
    unfold between. change (B ":" ++ n ++ B ":") with (":"%char :: n ++ [":"%char]). cbn [app]. rewrite <- app_assoc. cbn [app in_text]. cbv zeta.
    change (ceq ":" colon) with true. cbv iota. pose proof W as (Z & L & N & F).
    rewrite (proj2 (pattern_some (n ++ ":"%char :: s) n s)) by auto. cbv iota beta. change [SP; TAB; NL; CR] with (blanks ++ [CR]).
    rewrite (proj2 (has_any_false _ _) F). destruct R as [u V|R|R U].
    + destruct (shown_emoji table n u W V) as (-> & m & i & ->). cbn [wat w_rem]. rewrite (proj2 (Nat.leb_le _ _)) by lia.
      rewrite wat_le by lia. exact IH.
    + rewrite (proj2 (table_ruler n N) R). rewrite wat_le by (rewrite between_length in Lc; rewrite colons_length; lia). exact IH.
    + destruct W' as [W'|(u & _ & e & K & _)]; [contradiction|]. destruct (known_not_unknown _ _ _ K U).
Qed.
Lemma replace_text_tokens table text l t : Tokens (text_name table) text l -> Meaning (Shown table) l t -> length t < 2 * length text + 16 -> replace_text table text = Out t.
Proof.
  intros T M L. unfold replace_text. cbv zeta. rewrite wat_new. rewrite (text_tokens table (length text * 2 + 16) text l T t M) by (cbn; lia).
  cbn [app]. cbn [wat w_oob w_rem]. rewrite (proj2 (Nat.ltb_lt 0 _)) by lia. apply wat_finish. lia.
Qed.
(** Names of at least half the length of their emoji. *)
Lemma meaning_fits table text l t : (forall e u, In e table -> unicode e = Some u -> length (ename e) > 1 -> length u <= 2 * (length (ename e) + 2)) ->
  Tokens (text_name table) text l -> Meaning (Shown table) l t -> (forall n, In (Name n) l -> length n > 1) -> length t <= 2 * length text.
Proof.
  intros S. intros T. revert t. induction T as [|c s l C H IH|n s l W H IH]; intros t M LN; inversion M as [|? ? t' M'|? x ? t' R M']; subst; cbn [length].
  - lia.
  - specialize (IH t' M' (fun n I => LN n (or_intror I))). lia.
  - specialize (IH t' M' (fun m I => LN m (or_intror I))). rewrite !app_length, between_length.
    assert (length x <= 2 * (length n + 2)); [|lia]. destruct R as [u (V1 & e & (l1 & l2 & E & N & _) & U)|R|R U]; [|rewrite between_length; lia..].
    specialize (LN n (or_introl eq_refl)). rewrite <- (key_length n), <- N in *. apply (S e u); [rewrite E; apply in_or_app; right; left; reflexivity|exact U|exact LN].
Qed.

(** * Places in HTML *)
Lemma tag_back_closed b : plain_text b -> forall r acc, r = [] \/ (exists r', r = ">"%char :: r') -> tag_back (rev b ++ r) acc = None.
Proof.
  intros [P1 P2] r acc Hr.
  assert (Q1 : ~ In "<"%char (rev b)) by (intros I; apply in_rev in I; contradiction).
  assert (Q2 : ~ In "&"%char (rev b)) by (intros I; apply in_rev in I; contradiction). clear P1 P2.
  revert acc. induction (rev b) as [|c d IH]; intros acc.
  - destruct Hr as [->|[r' ->]]; reflexivity.
  - apply nin_cons in Q1 as [N1 Q1]. apply nin_cons in Q2 as [N2 Q2]. cbn [app tag_back]. destruct (ceq c ">"%char); [reflexivity|].
    rewrite (proj2 (ceq_neq c "<"%char)) by congruence.
    assert (A : forall x, x <> ">"%char -> x <> NUL -> ceq (at_ (d ++ r) 0) x && ceq (at_ (d ++ r) 1) "&"%char = false).
    { intros x X1 X2. destruct d as [|d1 [|d2 d3]].
      - destruct Hr as [->|[r' ->]]; cbn [app at_ nth]; [rewrite (proj2 (ceq_neq NUL x)) by congruence|rewrite (proj2 (ceq_neq ">"%char x)) by congruence]; reflexivity.
      - destruct Hr as [->|[r' ->]]; cbn [app at_ nth]; apply andb_false_r.
      - cbn [app at_ nth]. apply nin_cons in Q2 as [_ Q2]. apply nin_cons in Q2 as [N3 _]. rewrite (proj2 (ceq_neq d2 "&"%char)) by congruence. apply andb_false_r. }
    rewrite <- !andb_assoc. rewrite (A "l"%char), (A "g"%char) by discriminate. rewrite !andb_false_r. apply IH; assumption.
Qed.
Lemma img_back_closed b : plain_text b -> forall n r acc, r = [] \/ (exists r', r = ">"%char :: r') -> img_back n (rev b ++ r) acc = None.
Proof.
  intros [P1 P2] n r acc Hr.
  assert (Q1 : ~ In "<"%char (rev b)) by (intros I; apply in_rev in I; contradiction). clear P1 P2.
  revert n acc. induction (rev b) as [|c d IH]; intros n acc.
  - destruct n; destruct Hr as [->|[r' ->]]; reflexivity.
  - apply nin_cons in Q1 as [N1 Q1]. destruct n as [|n]; [reflexivity|]. cbn [app img_back]. destruct (ceq c ">"%char); [reflexivity|].
    rewrite (proj2 (ceq_neq c "<"%char)) by congruence. destruct (_ && _); [reflexivity|]. apply IH; assumption.
Qed.
Lemma closed_rev a : closed a -> exists b r, rev a = rev b ++ r /\ plain_text b /\ (r = [] \/ exists r', r = ">"%char :: r').
Proof.
  intros [P|(u & b & -> & P)].
  - exists a, []. rewrite app_nil_r. auto.
  - exists b, (">"%char :: rev u). split; [|eauto]. rewrite !rev_app_distr, <- app_assoc. reflexivity.
Qed.
Lemma closed_tag a : closed a -> tag_back (rev a) [] = None.
Proof. intros H. destruct (closed_rev a H) as (b & r & -> & P & R). apply tag_back_closed; assumption. Qed.
Lemma closed_attribute a : closed a -> inside_attribute (rev a) = false.
Proof. intros H. unfold inside_attribute. rewrite closed_tag by exact H. reflexivity. Qed.
Lemma closed_img a n : closed a -> img_back n (rev a) [] = None.
Proof. intros H. destruct (closed_rev a H) as (b & r & -> & P & R). apply img_back_closed; assumption. Qed.
Lemma marker_tag b : starts (rev (B "<!--IDX")) b = true -> tag_back b [] = Some (B "!--IDX").
Proof. intros H. apply starts_spec in H as [r ->]. reflexivity. Qed.
Lemma closed_marker a : closed a -> starts (rev (B "<!--IDX")) (rev a) = false.
Proof.
  intros H. destruct (starts _ (rev a)) eqn:E; [|reflexivity]. apply marker_tag in E. rewrite closed_tag in E by exact H. discriminate.
Qed.
Lemma tag_back_open b r : Forall (fun c => ~ In c (B "<>&")) b -> forall acc, tag_back (b ++ "<"%char :: r) acc = Some (rev b ++ acc).
Proof.
  induction 1 as [|c b N F IH]; intros acc; [reflexivity|]. cbn [app tag_back rev].
  assert (X : c <> ">"%char /\ c <> "<"%char) by (split; intros ->; apply N; cbn; auto). destruct X as [X1 X2].
  rewrite (proj2 (ceq_neq c ">"%char)) by exact X1. rewrite (proj2 (ceq_neq c "<"%char)) by exact X2.
  assert (A : forall x, x <> "<"%char -> ceq (at_ (b ++ "<"%char :: r) 0) x && ceq (at_ (b ++ "<"%char :: r) 1) "&"%char = false).
  { intros x X. destruct b as [|d1 [|d2 d3]]; cbn [app at_ nth].
    - rewrite (proj2 (ceq_neq "<"%char x)) by congruence. reflexivity.
    - apply andb_false_r.
    - inversion F as [|? ? _ F']; subst. inversion F' as [|? ? N' _]; subst. assert (d2 <> "&"%char) by (intros ->; apply N'; cbn; auto).
      rewrite (proj2 (ceq_neq d2 "&"%char)) by assumption. apply andb_false_r. }
  rewrite <- !andb_assoc. rewrite (A "l"%char), (A "g"%char) by discriminate. rewrite !andb_false_r. rewrite IH, <- app_assoc. reflexivity.
Qed.
Lemma after_last_app c a x : ~ In c x -> after_last c (a ++ c :: x) = Some x.
Proof.
  intros N. induction a as [|d a IH]; cbn [app after_last].
  - assert (K : after_last c x = None). { induction x as [|d x IHx]; [reflexivity|]. apply nin_cons in N as [N1 N2]. cbn [after_last]. rewrite (IHx N2). rewrite (proj2 (ceq_neq d c)) by congruence. reflexivity. }
    rewrite K, ceq_refl. reflexivity.
  - rewrite IH. reflexivity.
Qed.
Lemma quoted_attribute a : quoted_place a -> inside_attribute (rev a) = true.
Proof.
  intros (u & t & q & x & -> & Q & N & Fx & Ft). unfold inside_attribute.
  assert (E : tag_back (rev (u ++ B "<" ++ t ++ B "=" ++ [q] ++ x)) [] = Some (t ++ "="%char :: q :: x)).
  { replace (rev (u ++ B "<" ++ t ++ B "=" ++ [q] ++ x)) with (rev (t ++ "="%char :: q :: x) ++ "<"%char :: rev u) by (rewrite rev_app_distr; cbn [B app rev]; rewrite !rev_app_distr; cbn [rev app]; rewrite <- !app_assoc; reflexivity).
    rewrite tag_back_open; [rewrite rev_involutive, app_nil_r; reflexivity|]. apply Forall_rev. apply Forall_app. split; [exact Ft|].
    constructor; [cbn; intuition discriminate|]. constructor; [destruct Q as [-> | ->]; cbn; intuition discriminate|].
    eapply Forall_impl; [|exact Fx]. cbn. intros c H I. apply H. cbn. tauto. }
  rewrite E. rewrite after_last_app.
  - assert (Sp : isspace q = false) by (destruct Q as [-> | ->]; reflexivity). cbn [span]. rewrite Sp. cbn [snd].
    assert (K : ceq q DQ || ceq q SQ = true) by (destruct Q as [-> | ->]; reflexivity). rewrite K. apply negb_true_iff.
    destruct (existsb (ceq q) x) eqn:X; [|reflexivity]. apply existsb_exists in X as (y & I & Y). apply ceq_eq in Y. subst. contradiction.
  - intros [X|X]; [destruct Q as [-> | ->]; discriminate|]. rewrite Forall_forall in Fx. apply (Fx _ X). cbn. auto.
Qed.
Lemma quoted_marker a : quoted_place a -> starts (rev (B "<!--IDX")) (rev a) = false.
Proof.
  intros H. destruct (starts _ (rev a)) eqn:E; [|reflexivity]. apply marker_tag in E. apply quoted_attribute in H. unfold inside_attribute in H.
  rewrite E in H. discriminate.
Qed.

(** * Emoji in HTML *)
Lemma html_tokens table cap s l : small table -> Tokens (word blanks) s l -> forall t, Meaning (Shown table) l t ->
  forall fuel a p, calm (a ++ s) -> length s < fuel -> length p + 3 * length s <= cap -> (s = [] -> length p < cap) ->
  in_html table fuel (rev a) s (wat cap p) = Some (wat cap (p ++ t)) /\ length (p ++ t) < cap.
Proof.
  intros SM. induction 1 as [|c s l C H IH|n s l W H IH]; intros t M fuel a p Ca Lf Lc Le; inversion M as [|? ? t' M'|? x ? t' R M']; subst;
    (destruct fuel as [|fuel]; [cbn [length] in Lf; lia|]).
  - rewrite app_nil_r. split; [reflexivity|]. apply Le. reflexivity.
  - cbn [length] in Lf, Lc. specialize (IH t' M' fuel (a ++ [c]) (p ++ [c])). rewrite app_length in IH. cbn [length] in IH.
    assert (P : in_html table fuel (c :: rev a) s (w_put c (wat cap p)) = Some (wat cap (p ++ c :: t')) /\ length (p ++ c :: t') < cap).
    { rewrite wat_put by lia. rewrite <- !app_assoc in IH. cbn [app] in IH. rewrite rev_app_distr in IH. apply IH; [exact Ca|lia..]. }
    cbn [in_html]. cbv zeta. destruct (ceq c colon) eqn:Ec; [|exact P]. apply ceq_eq in Ec. subst c.
    assert (Cl : closed a) by (apply (Ca a s); reflexivity).
    cbn [andb]. rewrite (closed_marker a Cl), (closed_attribute a Cl), (closed_img a 49 Cl).
    destruct (pattern s) as [[n rest]|] eqn:Ep; [|exact P]. destruct (has_any [SP; TAB; NL] n) eqn:Q; [exact P|exfalso].
    apply pattern_some in Ep as (-> & N & Z & L). apply has_any_false in Q. apply (C eq_refl n rest eq_refl). split; auto.
  - rewrite app_length, between_length in Lf, Lc. specialize (IH t' M' fuel (a ++ between n) (p ++ x)). rewrite <- !app_assoc in IH. rewrite rev_app_distr in IH.
    assert (Cl : closed a) by (apply (Ca a (n ++ B ":" ++ s)); unfold between; rewrite <- !app_assoc; reflexivity).
    assert (Lx : length x < 3 * (length n + 2)).
    { destruct R as [u (_ & e & (l1 & l2 & E & N & _) & U)|R|R U]; [|rewrite between_length; lia..].
      rewrite <- (key_length n), <- N. apply (SM e u); [rewrite E; apply in_or_app; right; left; reflexivity|exact U]. }
    assert (K : in_html table fuel (rev (between n) ++ rev a) s (wat cap (p ++ x)) = Some (wat cap (p ++ x ++ t')) /\ length (p ++ x ++ t') < cap).
    { apply IH; [exact Ca|lia|rewrite app_length; lia|intros _; rewrite app_length; lia]. }
    clear IH. unfold between at 1. change (B ":" ++ n ++ B ":") with (colon :: n ++ [colon]). cbn [app]. rewrite <- app_assoc. cbn [app in_html]. cbv zeta.
    rewrite (ceq_refl colon). cbn [andb]. rewrite (closed_marker a Cl), (closed_attribute a Cl), (closed_img a 49 Cl). pose proof W as (Z & L & N & F).
    rewrite (proj2 (pattern_some (n ++ colon :: s) n s)) by auto. cbv iota beta. change [SP; TAB; NL] with blanks.
    rewrite (proj2 (has_any_false _ _) F).
    replace (rev (n ++ [colon]) ++ colon :: rev a) with (rev (between n) ++ rev a) by (change (between n) with (colon :: n ++ [colon]); cbn [rev]; rewrite <- app_assoc; reflexivity).
    change (colon :: n ++ [colon]) with (between n).
    destruct R as [u (V & e & Kn & U)|R|R U].
    + destruct (table_pattern n) eqn:T; [apply (table_ruler n N) in T; contradiction|]. rewrite (normalize_key n N), (known_find _ _ _ Kn).
      destruct e as [m v i]. cbn in U. subst v. cbn [wat w_rem]. rewrite (proj2 (Nat.ltb_lt _ _)) by lia. rewrite wat_lt by lia. exact K.
    + rewrite (proj2 (table_ruler n N) R). rewrite wat_lt by lia. exact K.
    + destruct (table_pattern n) eqn:T; [apply (table_ruler n N) in T; contradiction|]. rewrite (normalize_key n N), (unknown_find _ _ U).
      rewrite wat_lt by lia. exact K.
Qed.
Lemma replace_tokens table html l t : small table -> html <> [] -> calm html -> Tokens (word blanks) html l -> Meaning (Shown table) l t -> replace table html = Out t.
Proof.
  intros SM Z Ca T M. unfold replace. cbv zeta. rewrite wat_new.
  destruct (html_tokens table (length html * 3) html l SM T t M (S (length html)) [] []) as [E L]; [exact Ca|lia|cbn; lia|congruence|].
  cbn [rev app] in E, L. rewrite E. apply wat_finish, L.
Qed.
(** Places where colons are just copied. *)
Lemma in_html_copy table cap s : forall fuel a p,
  (forall b r, s = b ++ colon :: r -> quoted_place (a ++ b)) ->
  length s < fuel -> length p + length s < cap ->
  in_html table fuel (rev a) s (wat cap p) = Some (wat cap (p ++ s)).
Proof.
  induction s as [|c s IH]; intros fuel a p Q Lf Lc; (destruct fuel as [|fuel]; [lia|]); [rewrite app_nil_r; reflexivity|]. cbn [length] in Lf, Lc.
  assert (P : in_html table fuel (c :: rev a) s (w_put c (wat cap p)) = Some (wat cap (p ++ c :: s))).
  { rewrite wat_put by lia. specialize (IH fuel (a ++ [c]) (p ++ [c])). rewrite <- !app_assoc, app_length, rev_app_distr in IH. cbn [app length rev] in IH.
    apply IH; [|lia|lia]. intros b r E. rewrite <- app_assoc. apply (Q (c :: b) r). rewrite E. reflexivity. }
  cbn [in_html]. cbv zeta. destruct (ceq c colon) eqn:Ec; [|exact P]. apply ceq_eq in Ec. subst c.
  assert (K : quoted_place a) by (rewrite <- (app_nil_r a); apply (Q [] s); reflexivity).
  cbn [andb]. rewrite (quoted_marker a K), (quoted_attribute a K). exact P.
Qed.
Lemma replace_quoted table html : html <> [] -> (forall a b, html = a ++ B ":" ++ b -> quoted_place a) -> replace table html = Out html.
Proof.
  intros Z Q. unfold replace. cbv zeta. rewrite wat_new.
  pose proof (in_html_copy table (length html * 3) html (S (length html)) [] []) as E. cbn [rev app] in E.
  assert (0 < length html) by (destruct html; [congruence|cbn; lia]).
  rewrite E; [apply wat_finish; lia|exact Q|lia|cbn; lia].
Qed.
Lemma replace_no_colon table html : html <> [] -> ~ In ":"%char html -> replace table html = Out html.
Proof.
  intros Z N. apply replace_quoted; [exact Z|]. intros a b E. destruct N. rewrite E. apply in_or_app. right. left. reflexivity.
Qed.
(** * Memory *)
Lemma w_put_rem' c w : w_rem w - 1 <= w_rem (w_put c w).
Proof. unfold w_put. destruct (0 <? w_rem w); cbn; lia. Qed.
Lemma w_lt_rem' s w : w_rem w - length s <= w_rem (w_puts_lt s w).
Proof. unfold w_puts_lt. destruct (_ <? _); cbn; lia. Qed.
Lemma w_le_rem' s w : w_rem w - length s <= w_rem (w_puts_le s w).
Proof. unfold w_puts_le. destruct (_ <=? _); cbn; lia. Qed.
Lemma img_lower i m g x b : img_name (i :: m :: g :: x :: b) = true -> map tolower [i; m; g] = B "img" /\ (x = ">"%char \/ isspace x = true).
Proof.
  unfold img_name. cbn [at_ nth]. rewrite !andb_true_iff, !orb_true_iff, !ceq_eq. intros [[[[-> | ->] [-> | ->]] [-> | ->]] [H|H]]; (split; [reflexivity|auto]).
Qed.
Lemma img_back_found html : no_img html -> forall n before acc s, html = rev before ++ acc ++ s -> img_back n before acc = None.
Proof.
  intros NI n. induction n as [|n IH]; intros [|c b] acc s E; try reflexivity. cbn [img_back]. destruct (ceq c ">"%char); [reflexivity|].
  destruct (ceq c "<"%char) eqn:Ec.
  - apply ceq_eq in Ec. subst c. destruct ((4 <=? length acc) && img_name acc) eqn:Q; [exfalso|reflexivity]. apply andb_true_iff in Q as [Q1 Q2]. apply Nat.leb_le in Q1.
    destruct acc as [|i [|m [|g [|x acc]]]]; cbn [length] in Q1; try lia. apply img_lower in Q2 as [Q2 Q3].
    cbn [rev] in E. rewrite <- app_assoc in E. cbn [app] in E.
    destruct (NI (rev b) (acc ++ s) i m g x) as [N1 N2]; [exact E|exact Q2|]. destruct Q3; congruence.
  - destruct (_ && _); [reflexivity|]. apply (IH b (c :: acc) s). rewrite E. cbn [rev]. rewrite <- app_assoc. reflexivity.
Qed.
Lemma in_html_safe table html : small table -> no_img html -> no_image table html ->
  forall fuel before s w, html = rev before ++ s -> length s < fuel -> w_ok w -> 3 * length s <= w_rem w -> (s = [] -> 0 < w_rem w) ->
  exists w', in_html table fuel before s w = Some w' /\ w_ok w' /\ 0 < w_rem w'.
Proof.
  intros SM NI NM fuel. induction fuel as [|fuel IH]; intros before s w E Lf O Lc Le; [lia|]. cbn [in_html]. destruct s as [|c r]; [eauto 6|]. cbn [length] in Lf, Lc. cbv zeta.
  assert (P : exists w', in_html table fuel (c :: before) r (w_put c w) = Some w' /\ w_ok w' /\ 0 < w_rem w').
  { pose proof (w_put_rem' c w). apply IH; [cbn [rev]; rewrite <- app_assoc; exact E|lia|apply w_put_ok, O|lia|intros ->; cbn [length] in *; lia]. }
  destruct (ceq c colon) eqn:Ec; [|exact P]. apply ceq_eq in Ec. subst c. cbn [andb].
  set (text := if inside_attribute before then _ else _).
  assert (T : exists w', text = Some w' /\ w_ok w' /\ 0 < w_rem w').
  { subst text. destruct (inside_attribute before); [exact P|]. rewrite (img_back_found html NI 49 before [] (colon :: r) E).
    destruct (pattern r) as [[n rest]|] eqn:Ep; [|exact P]. apply pattern_some in Ep as (-> & N & Z & L). destruct (has_any _ n); [exact P|].
    rewrite app_length in Lf, Lc. cbn [length] in Lf, Lc.
    assert (E' : html = rev (rev (n ++ [colon]) ++ colon :: before) ++ rest).
    { rewrite rev_app_distr, rev_involutive. cbn [rev]. rewrite <- !app_assoc. exact E. }
    assert (Q : forall w', w_ok w' -> w_rem w < w_rem w' + 3 * (length n + 2) -> exists w'', in_html table fuel (rev (n ++ [colon]) ++ colon :: before) rest w' = Some w'' /\ w_ok w'' /\ 0 < w_rem w'').
    { intros w' O' L'. apply IH; [exact E'|lia|exact O'|lia|lia]. }
    assert (Q0 : w_rem w < w_rem (w_puts_lt (colon :: n ++ [colon]) w) + 3 * (length n + 2)).
    { pose proof (w_lt_rem' (colon :: n ++ [colon]) w). cbn [length] in H. rewrite app_length in H. cbn [length] in H. lia. }
    destruct (table_pattern n); [apply Q; [apply w_puts_lt_ok, O|exact Q0]|].
    rewrite (normalize_key n N). pose proof (find_known table (key n)) as K. destruct (find_entry table (key n)) as [[m [u|] i]|].
    - apply Q; [destruct (_ <? _); apply w_puts_lt_ok, O|]. destruct (_ <? _); [|exact Q0]. pose proof (w_lt_rem' u w).
      destruct K as (l1 & l2 & K1 & K2 & _). cbn in K2. assert (X : length u < 3 * (length (key n) + 2)).
      { rewrite <- K2. apply (SM (Entry m (Some u) i) u); [rewrite K1; apply in_or_app; right; left; reflexivity|reflexivity]. }
      rewrite key_length in X. lia.
    - destruct (NM (rev before) n rest (Entry m None i)); [|exact K|reflexivity].
      rewrite E. unfold between. cbn. rewrite <- app_assoc. reflexivity.
    - apply Q; [apply w_puts_lt_ok, O|exact Q0]. }
  destruct (starts _ before); [|exact T]. destruct (strstr _ _) as [k|] eqn:Es; [|exact T]. destruct (k + 3 <=? w_rem w) eqn:Ek; [|exact T]. clear T text P. 
  apply strstr_some in Es as (a & b & Es & La & _).
  set (s := colon :: r) in *. assert (Ls : length s = k + 3 + length b) by (rewrite Es, !app_length; cbn; lia).
  assert (Ls' : length s = S (length r)) by reflexivity. rewrite <- (firstn_skipn (k + 3) s) in E.
  assert (L1 : length (firstn (k + 3) s) = k + 3) by (rewrite firstn_length; lia).
  assert (L2 : length (skipn (k + 3) s) = length b) by (rewrite skipn_length; lia).
  pose proof (w_le_rem' (firstn (k + 3) s) w). apply IH.
  - rewrite rev_app_distr, rev_involutive, <- app_assoc. exact E.
  - lia.
  - apply w_puts_le_ok, O.
  - lia.
  - intros X. lia.
Qed.
Lemma replace_safe table html : html <> [] -> small table -> no_img html -> no_image table html -> exists t, replace table html = Out t.
Proof.
  intros Z SM NI NM. unfold replace. cbv zeta. assert (0 < length html) by (destruct html; [congruence|cbn; lia]).
  destruct (in_html_safe table html SM NI NM (S (length html)) [] html (w_new (length html * 3) (length html * 3))) as (w & E & O & R); [reflexivity|lia|apply w_ok_new|cbn; lia|congruence|].
  rewrite E. unfold finish. cbv zeta. rewrite (proj2 (w_term_safe w O) R). eauto.
Qed.

(** * Images *)
Lemma in_header_mark before : forall a, in_header before = true -> level_mark (rev before ++ a).
Proof.
  induction before as [|c b IH]; intros a H; [discriminate|]. cbn [in_header] in H.
  assert (R : in_header b = true -> level_mark (rev (c :: b) ++ a)) by (intros K; cbn [rev]; rewrite <- app_assoc; apply IH, K).
  destruct (ceq c ">"%char && (3 <? length b)) eqn:Q; [|exact (R H)]. apply andb_true_iff in Q as [Q1 Q2]. apply ceq_eq in Q1. subst c. apply Nat.ltb_lt in Q2.
  destruct (_ && _) in H; [destruct ((5 <=? length b) && _ && _) in H; [discriminate|exact (R H)]|].
  destruct (is_h (at_ b 0) && is_level (at_ b 1) && ceq (at_ b 2) "<"%char) eqn:K; [|exact (R H)].
  destruct b as [|x1 [|x2 [|x3 b]]]; cbn [length] in Q2; try lia. cbn [at_ nth] in K. rewrite !andb_true_iff in K. destruct K as [[K1 K2] K3]. apply ceq_eq in K3. subst x3.
  exists (rev b), x2, x1, a. split; [cbn [rev B app]; rewrite <- !app_assoc; reflexivity|]. split.
  - unfold is_level in K2. apply existsb_exists in K2 as (y & I & Y). apply ceq_eq in Y. subst. exact I.
  - unfold is_h in K1. apply orb_true_iff in K1 as [K1|K1]; apply ceq_eq in K1; subst; cbn; auto.
Qed.
Lemma in_html_prefix table cap s : forall fuel a r p, ~ In colon s -> length s <= fuel -> length p + length s < cap ->
  in_html table fuel (rev a) (s ++ r) (wat cap p) = in_html table (fuel - length s) (rev (a ++ s)) r (wat cap (p ++ s)).
Proof.
  induction s as [|c s IH]; intros fuel a r p N Lf Lc; cbn [length] in *; [cbn [app]; rewrite !app_nil_r, Nat.sub_0_r; reflexivity|].
  destruct fuel as [|fuel]; [lia|]. apply nin_cons in N as [N1 N2]. cbn [app in_html]. cbv zeta. rewrite (proj2 (ceq_neq c colon)) by congruence. cbn [andb].
  rewrite wat_put by lia. specialize (IH fuel (a ++ [c]) r (p ++ [c]) N2). rewrite rev_app_distr in IH. cbn [rev app] in IH. rewrite app_length in IH. cbn [length] in IH.
  rewrite IH by lia. rewrite <- !app_assoc. reflexivity.
Qed.
Lemma w_full cap s : forall fuel table before p w, ~ In colon s -> length s < fuel -> w = wat cap p -> length p <= cap -> cap <= length p + length s ->
  exists w', in_html table fuel before s w = Some w' /\ w_cap w' = cap /\ w_out w' = p ++ firstn (cap - length p) s.
Proof.
  induction s as [|c s IH]; intros fuel table before p w N Lf -> L1 L2; (destruct fuel as [|fuel]; [lia|]); cbn [length] in *.
  - exists (wat cap p). split; [reflexivity|]. split; [reflexivity|]. rewrite firstn_nil, app_nil_r. reflexivity.
  - apply nin_cons in N as [N1 N2]. cbn [in_html]. cbv zeta. rewrite (proj2 (ceq_neq c colon)) by congruence. cbn [andb].
    destruct (Nat.eq_dec (length p) cap) as [Ep|Ep].
    + assert (P : w_put c (wat cap p) = wat cap p) by (unfold w_put, wat; cbn [w_rem]; rewrite (proj2 (Nat.ltb_ge 0 _)) by lia; reflexivity).
      rewrite P. destruct (IH fuel table (c :: before) p _ N2 ltac:(lia) eq_refl L1 ltac:(lia)) as (w' & -> & C & E). exists w'. split; [reflexivity|]. split; [exact C|].
      rewrite E. replace (cap - length p) with 0 by lia. reflexivity.
    + rewrite wat_put by lia. destruct (IH fuel table (c :: before) (p ++ [c]) _ N2 ltac:(lia) eq_refl) as (w' & -> & C & E); [rewrite app_length; cbn [length]; lia..|].
      exists w'. split; [reflexivity|]. split; [exact C|]. rewrite E, app_length. cbn [length]. replace (cap - length p) with (S (cap - (length p + 1))) by lia.
      cbn [firstn]. rewrite <- app_assoc. reflexivity.
Qed.
Lemma replace_image table u n v m url : ~ In ":"%char u -> ~ In ":"%char v -> closed u -> ~ level_mark u -> word blanks n -> ~ ruler n ->
  Known table (key n) (Entry m None (Some url)) ->
  let html := u ++ between n ++ v in let tag := image_tag false url m in
  replace table html = (if length u + length tag <? 3 * length html then
                         if length (u ++ tag ++ v) <? 3 * length html then Out (u ++ tag ++ v) else Bad
                       else Out html).
Proof.
  intros Nu Nv Cl NL' W Rn Kn. cbv zeta. set (html := u ++ between n ++ v). set (tag := image_tag false url m).
  assert (Lh : length html = length u + (length n + 2) + length v) by (unfold html; rewrite !app_length, between_length; lia).
  unfold replace. cbv zeta. rewrite wat_new. set (cap := length html * 3) in *.
  assert (E0 : in_html table (S (length html)) [] html (wat cap []) = in_html table (S (length html) - length u) (rev u) (between n ++ v) (wat cap u)).
  { apply (in_html_prefix table cap u (S (length html)) [] (between n ++ v) []); [exact Nu|lia|cbn; lia]. }
  rewrite E0. destruct (S (length html) - length u) as [|fuel] eqn:Ef; [lia|]. pose proof W as (Z & L & N & F).
  assert (E1 : in_html table (S fuel) (rev u) (between n ++ v) (wat cap u) =
    in_html table fuel (rev (u ++ between n)) v (if length u + length tag <? cap then wat cap (u ++ tag) else wat cap (u ++ between n))).
  { unfold between at 1. change (B ":" ++ n ++ B ":") with (colon :: n ++ [colon]). cbn [app]. rewrite <- app_assoc. cbn [app in_html]. cbv zeta.
    rewrite (ceq_refl colon). cbn [andb]. rewrite (closed_marker u Cl), (closed_attribute u Cl), (closed_img u 49 Cl).
    rewrite (proj2 (pattern_some (n ++ colon :: v) n v)) by auto. cbv iota beta. change [SP; TAB; NL] with blanks.
    rewrite (proj2 (has_any_false _ _) F). destruct (table_pattern n) eqn:T; [apply (table_ruler n N) in T; contradiction|].
    rewrite (normalize_key n N), (known_find _ _ _ Kn).
    assert (Hh : in_header (rev u) = false). { destruct (in_header (rev u)) eqn:Hh; [|reflexivity]. apply (in_header_mark _ []) in Hh. rewrite rev_involutive, app_nil_r in Hh. contradiction. }
    rewrite Hh. fold tag. replace (rev (n ++ [colon]) ++ colon :: rev u) with (rev (u ++ between n)) by (change (between n) with (colon :: n ++ [colon]); rewrite rev_app_distr; cbn [rev]; rewrite <- app_assoc; reflexivity).
    change (colon :: n ++ [colon]) with (between n). cbn [wat w_rem].
    destruct (Nat.ltb_spec (length tag) (cap - length u)) as [X|X]; destruct (Nat.ltb_spec (length u + length tag) cap) as [Y|Y]; try lia.
    - rewrite wat_lt by lia. reflexivity.
    - rewrite wat_lt by (rewrite between_length; lia). reflexivity. }
  rewrite E1. replace (3 * length html) with cap by lia.
  destruct (Nat.ltb_spec (length u + length tag) cap) as [X|X].
  - destruct (Nat.ltb_spec (length (u ++ tag ++ v)) cap) as [Y|Y].
    + rewrite !app_length in Y. pose proof (in_html_prefix table cap v fuel (u ++ between n) [] (u ++ tag)) as P. rewrite app_nil_r in P. rewrite P; [|exact Nv|lia|rewrite app_length; lia].
      destruct (fuel - length v) as [|k] eqn:Q; [lia|]. cbn [in_html]. rewrite <- app_assoc. apply wat_finish. rewrite !app_length. lia.
    + rewrite !app_length in Y. destruct (w_full cap v fuel table (rev (u ++ between n)) (u ++ tag) _ Nv ltac:(lia) eq_refl) as (w' & -> & C & O); [rewrite app_length; lia..|].
      unfold finish. cbv zeta. unfold w_term. cbn [w_oob w_out]. rewrite C, O.
      replace (cap <=? length ((u ++ tag) ++ firstn (cap - length (u ++ tag)) v)) with true; [rewrite orb_true_r; reflexivity|].
      symmetry. apply Nat.leb_le. rewrite app_length, firstn_length, !app_length. lia.
  - pose proof (in_html_prefix table cap v fuel (u ++ between n) [] (u ++ between n)) as P. rewrite app_nil_r in P. rewrite P; [|exact Nv|lia|rewrite app_length, between_length; lia].
    destruct (fuel - length v) as [|k] eqn:Q; [lia|]. cbn [in_html]. rewrite <- app_assoc. apply wat_finish. fold html. lia.
Qed.
