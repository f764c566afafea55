(** Lemmas about marking up abbreviations. *)
From Verif Require Import Base BaseL M_Abbr S_Abbr L_Trans L_Highlight L_Abbr.

Lemma find_first {A} (f : A -> bool) l x : find f l = Some x <->
  exists a b, l = a ++ x :: b /\ f x = true /\ forall y, In y a -> f y = false.
Proof.
  split.
  - induction l as [|y l IH]; [discriminate|]. cbn [find]. destruct (f y) eqn:E.
    + intros H. apply Some_inj in H. subst y. exists [], l. split; [reflexivity|]. split; [exact E|]. intros ? [].
    + intros H. destruct (IH H) as (a & b & -> & H1 & H2). exists (y :: a), b. split; [reflexivity|]. split; [exact H1|].
      intros z [->|I]; [exact E|exact (H2 z I)].
  - intros (a & b & -> & H1 & H2). induction a as [|y a IH]; cbn [app find]; [rewrite H1; reflexivity|].
    rewrite (H2 y) by (left; reflexivity). apply IH. intros z I. apply H2. right. exact I.
Qed.

(** ** What is found at a place *)
Lemma bracket_end_spec s : forallb (fun c => negb (bracket_end c)) s = true <-> in_brackets s.
Proof.
  unfold in_brackets. rewrite forallb_forall. split.
  - intros H. split; [|split]; intros I; specialize (H _ I); discriminate H.
  - intros (H1 & H2 & H3) c I. unfold bracket_end. rewrite negb_true_iff, !orb_false_iff. rewrite !ceq_neq.
    repeat split; intros ->; tauto.
Qed.
Lemma body_span b r : in_brackets b -> span (fun c => negb (bracket_end c)) (b ++ "]"%char :: r) = (b, "]"%char :: r).
Proof. intros H. apply span_uniq; [apply bracket_end_spec, H|]. intros c q [= <- _]. reflexivity. Qed.
Lemma in_brackets_app a b : in_brackets (a ++ b) <-> in_brackets a /\ in_brackets b.
Proof. unfold in_brackets. rewrite !in_app_iff. tauto. Qed.
Lemma in_brackets_cons c a : in_brackets (c :: a) <-> bracket_end c = false /\ in_brackets a.
Proof. rewrite <- !bracket_end_spec. cbn [forallb]. rewrite andb_true_iff, negb_true_iff. tauto. Qed.
Lemma at_0_app b c r : at_ (b ++ c :: r) 0 = at_ (b ++ [c]) 0.
Proof. destruct b; reflexivity. Qed.

Lemma bracket_explicit items a e r : explicit_ok a e -> bracket_at items (explicit a e ++ r) = Explicit a e r.
Proof.
  intros (Na & Ne & Nc & Ba & Be). unfold bracket_at, explicit. rewrite <- !app_assoc.
  replace (B "[&gt;(" ++ a ++ B ")" ++ e ++ B "]" ++ r) with (B "[&gt;" ++ ("("%char :: a ++ ")"%char :: e) ++ "]"%char :: r)
    by (cbn [app]; rewrite <- app_assoc; reflexivity).
  rewrite starts_app. change (skipn 5 (B "[&gt;" ++ ("("%char :: a ++ ")"%char :: e) ++ "]"%char :: r)) with (("("%char :: a ++ ")"%char :: e) ++ "]"%char :: r).
  cbv zeta. rewrite body_span.
  - cbn [app at_ nth ceq]. change (ceq "]" "]") with true. change (ceq "(" "(") with true. cbv iota. cbn [skipn].
    rewrite <- app_assoc. cbn [app]. rewrite chr_first by exact Nc. cbn [length].
    replace (Nat.ltb (S (length a)) (S (length (a ++ ")"%char :: e)))) with true.
    + rewrite take_app. replace (length a + 2) with (S (S (length a))) by lia.
      change (skipn (S (S (length a))) ("("%char :: a ++ ")"%char :: e)) with (skipn (S (length a)) (a ++ ")"%char :: e)). rewrite drop_app_S.
      destruct a; [congruence|]. destruct e; [congruence|]. reflexivity.
    + symmetry. apply Nat.ltb_lt. rewrite app_length. cbn [length]. lia.
  - apply in_brackets_cons. split; [reflexivity|]. apply in_brackets_app. split; [exact Ba|]. apply in_brackets_cons. split; [reflexivity|exact Be].
Qed.
Lemma bracket_known items b a e r : reference_ok items b a e -> bracket_at items (reference b ++ r) = Known a e r.
Proof.
  intros (L & Bb & Np & T & (l1 & l2 & E & F)). unfold bracket_at, reference. rewrite <- !app_assoc, starts_app.
  change (skipn 5 (B "[&gt;" ++ b ++ B "]" ++ r)) with (b ++ "]"%char :: r). cbv zeta. rewrite body_span by exact Bb.
  change (ceq "]" "]") with true. cbv iota.
  destruct (ceq (at_ (b ++ "]"%char :: r) 0) "(") eqn:C.
  { apply ceq_eq in C. destruct b as [|x b]; [discriminate|]. cbn in C. subst x. destruct (Np b eq_refl). }
  replace (_ && _)%bool with true by (symmetry; apply andb_true_iff; rewrite !Nat.ltb_lt; exact L).
  replace (find _ items) with (Some (a, e)); [reflexivity|]. symmetry. apply find_first. exists l1, l2. split; [exact E|].
  apply trims_unique in T. rewrite T. cbn [fst]. split; [apply seq_eq; reflexivity|].
  intros [a' e'] I. cbn [fst]. destruct (seq_ a' a) eqn:Q; [|reflexivity]. apply seq_eq in Q. subst a'. destruct (F e' I).
Qed.
Lemma bracket_at_spec items s :
  match bracket_at items s with
  | Explicit a e r => s = explicit a e ++ r /\ explicit_ok a e
  | Known a e r => exists b, s = reference b ++ r /\ reference_ok items b a e
  | Nothing => (forall a e t, explicit_ok a e -> s <> explicit a e ++ t) /\
               (forall b a e t, reference_ok items b a e -> s <> reference b ++ t)
  end.
Proof.
  destruct (bracket_at items s) as [a e r|a e r|] eqn:Eq.
  3: { split; intros; intros ->; [rewrite bracket_explicit in Eq by assumption|erewrite bracket_known in Eq by eassumption]; discriminate. }
  all: unfold bracket_at in Eq; (destruct (starts (B "[&gt;") s) eqn:E0; [|discriminate]); apply starts_spec in E0 as [q ->];
    change (skipn 5 (B "[&gt;" ++ q)) with q in Eq; cbv zeta in Eq;
    destruct (span (fun c => negb (bracket_end c)) q) as [body tail] eqn:Sp; apply span_spec in Sp as (-> & Bb & _); apply bracket_end_spec in Bb;
    (destruct tail as [|x tail]; [discriminate|]); (destruct (ceq x "]") eqn:Ex; [|discriminate]); apply ceq_eq in Ex; subst x;
    destruct (ceq (at_ (body ++ "]"%char :: tail) 0) "(") eqn:Ep.
  - destruct body as [|x b]; [discriminate|]. cbn [app at_ nth] in Ep. apply ceq_eq in Ep. subst x. cbn [skipn app] in Eq.
    destruct (strchr ")" (b ++ "]"%char :: tail)) as [i|] eqn:Ei; [|discriminate].
    destruct (Nat.ltb_spec (S i) (length ("("%char :: b))) as [Li|]; [|discriminate]. cbn [length] in Li.
    apply chr_split in Ei as (Ei & Ni & _).
    rewrite !firstn_app in *. replace (i - length b) with 0 in * by lia. cbn [firstn] in *. rewrite app_nil_r in *.
    assert (Sk : skipn (i + 2) ("("%char :: b) = skipn (S i) b) by (rewrite Nat.add_comm; reflexivity). rewrite Sk in Eq.
    rewrite skipn_app in Ei. replace (S i - length b) with 0 in Ei by lia. cbn [skipn] in Ei.
    assert (Eb : b = firstn i b ++ ")"%char :: skipn (S i) b).
    { assert (X : b ++ "]"%char :: tail = (firstn i b ++ ")"%char :: skipn (S i) b) ++ "]"%char :: tail) by (rewrite <- app_assoc; exact Ei).
      apply app_inv_tail in X. exact X. }
    remember (firstn i b) as u eqn:Eu. remember (skipn (S i) b) as v eqn:Ev. clear Eu Ev Ei.
    destruct u as [|u0 u]; [discriminate|]. destruct v as [|v0 v]; [discriminate|]. injection Eq as <- <- <-.
    apply in_brackets_cons in Bb as [_ Bb]. rewrite Eb in Bb. apply in_brackets_app in Bb as [Bu Bv]. apply in_brackets_cons in Bv as [_ Bv].
    split; [|split; [discriminate|split; [discriminate|split; [exact Ni|split; [exact Bu|exact Bv]]]]].
    rewrite Eb. unfold explicit. rewrite <- !app_assoc. cbn [B list_ascii_of_string app]. do 7 f_equal. rewrite <- app_assoc. reflexivity.
  - destruct (_ && _)%bool in Eq; [|discriminate]. destruct (find _ items) as [[a0 e0]|] in Eq; discriminate.
  - destruct (strchr ")" (skipn 1 (body ++ "]"%char :: tail))) as [i|]; [|discriminate].
    destruct (Nat.ltb (S i) (length body)); [|discriminate].
    destruct (firstn i _); [discriminate|]. destruct (skipn (i + 2) body); discriminate.
  - destruct (_ && _)%bool eqn:EL in Eq; [|discriminate]. rewrite andb_true_iff, !Nat.ltb_lt in EL.
    destruct (find _ items) as [[a0 e0]|] eqn:Ef in Eq; [|discriminate]. injection Eq as <- <- <-.
    apply find_first in Ef as (l1 & l2 & Ei & Et & Eo). cbn [fst] in Et. apply seq_eq in Et.
    exists body. split; [unfold reference; rewrite <- !app_assoc; reflexivity|].
    split; [exact EL|]. split; [exact Bb|]. split.
    { intros t ->. cbn in Ep. discriminate. }
    split; [rewrite Et; apply trim_trims|]. exists l1, l2. split; [exact Ei|]. intros e' I. specialize (Eo _ I). cbn [fst] in Eo.
    rewrite Et, (proj2 (seq_eq _ _) eq_refl) in Eo. discriminate.
Qed.

Lemma stands_spec prev a r : negb (word_byte prev) && negb (isalnum (at_ (a ++ r) (length a))) = true <-> stands prev a r.
Proof.
  unfold stands, alnum_end, alnum_front, at_. rewrite app_nth2, Nat.sub_diag by lia. rewrite andb_true_iff, !negb_true_iff. split.
  - intros [H1 H2]. split.
    + intros (c & -> & H). cbn in H1. congruence.
    + intros (c & q & -> & H). cbn in H2. congruence.
  - intros [H1 H2]. split.
    + destruct prev as [c|]; [|reflexivity]. cbn. destruct (isalnum c) eqn:E; [|reflexivity]. destruct H1. exists c. auto.
    + destruct r as [|c r]; [reflexivity|]. cbn [nth]. destruct (isalnum c) eqn:E; [|reflexivity]. destruct H2. exists c, r. auto.
Qed.
Lemma matches_spec prev s a e : matches prev s (a, e) = true <-> exists r, s = a ++ r /\ stands prev a r.
Proof.
  unfold matches. cbn [fst]. split.
  - destruct (starts a s) eqn:E; [|discriminate]. apply starts_spec in E as [r ->]. cbn [andb]. intros H. exists r. split; [reflexivity|]. apply stands_spec, H.
  - intros (r & -> & H). rewrite starts_app. cbn [andb]. apply stands_spec, H.
Qed.
Lemma found_word items prev s a e : find (matches prev s) items = Some (a, e) <-> exists rest, word_ok items prev s a e rest.
Proof.
  rewrite find_first. split.
  - intros (l1 & l2 & E & M & F). apply matches_spec in M as (r & -> & St). exists r. split; [reflexivity|]. split; [exact St|].
    exists l1, l2. split; [exact E|]. intros a' e' r' I Es St'. specialize (F _ I).
    assert (X : matches prev (a ++ r) (a', e') = true) by (apply matches_spec; eauto). congruence.
  - intros (r & Es & St & l1 & l2 & E & F). exists l1, l2. split; [exact E|]. split; [apply matches_spec; eauto|].
    intros [a' e'] I. destruct (matches prev s (a', e')) eqn:M; [|reflexivity]. apply matches_spec in M as (r' & E' & St').
    destruct (F _ _ _ I E' St').
Qed.
Lemma no_word items prev s : find (matches prev s) items = None <-> forall a e r, ~ word_ok items prev s a e r.
Proof.
  split.
  - intros H a e r W. assert (X : find (matches prev s) items = Some (a, e)) by (apply found_word; eauto). congruence.
  - intros H. destruct (find (matches prev s) items) as [[a e]|] eqn:E; [|reflexivity]. apply found_word in E as [r W]. destruct (H _ _ _ W).
Qed.
Lemma last_byte_of prev s : last_byte prev s = last_of prev s.
Proof.
  unfold last_byte, last_of. destruct s as [|c s] using rev_ind; [reflexivity|].
  rewrite rev_app_distr, map_app. cbn [rev app map]. rewrite last_last. reflexivity.
Qed.

(** ** The loop *)
Lemma tag_whole a e : length (tag a e) < 2048 -> abbr_tag a e = tag a e.
Proof. intros H. change (abbr_tag a e) with (firstn 2047 (tag a e)). apply (firstn_all2 (n := 2047)). lia. Qed.
Lemma tag_length a e : length (tag a e) = length a + length e + 22.
Proof. unfold tag. rewrite !app_length. cbn [B list_ascii_of_string length]. lia. Qed.
Lemma trims_length s t : trims s t -> length t <= length s.
Proof. intros (_ & a & b & -> & _ & _). rewrite !app_length. lia. Qed.
Lemma short_suffix x s : short_explicit (x ++ s) -> short_explicit s.
Proof. intros H y a e t E O. apply (H (x ++ y) a e t); [rewrite E, <- app_assoc; reflexivity|exact O]. Qed.
Definition put_all (o : str) (w : wr) : wr := Wr (w_cap w) (w_out w ++ o) (w_rem w - length o) (w_oob w).
Lemma puts_room s w : w_ok w -> length s < w_rem w -> w_puts_lt s w = put_all s w.
Proof.
  intros O L. pose proof (w_puts_lt_ok s w O) as [_ O2]. unfold w_puts_lt in *. rewrite (proj2 (Nat.ltb_lt _ _) L) in *. unfold w_set_rem, w_store, put_all in *.
  cbn [w_cap w_out w_rem w_oob] in *. rewrite O2. destruct O as [_ O]. rewrite O. reflexivity.
Qed.
Lemma put_room c w : w_ok w -> 0 < w_rem w -> w_put c w = put_all [c] w.
Proof.
  intros O L. pose proof (w_put_ok c w O) as [_ O2]. unfold w_put in *. rewrite (proj2 (Nat.ltb_lt _ _) L) in *. unfold w_set_rem, w_store, put_all in *.
  cbn [w_cap w_out w_rem w_oob] in *. rewrite O2. destruct O as [_ O]. rewrite O. reflexivity.
Qed.
Lemma put_all_ok o w : w_ok w -> length o <= w_rem w -> w_ok (put_all o w).
Proof. intros [O1 O2] L. split; cbn [put_all w_cap w_out w_rem w_oob]; [rewrite app_length; lia|exact O2]. Qed.
Lemma put_all_app o p w : put_all p (put_all o w) = put_all (o ++ p) w.
Proof. unfold put_all. cbn [w_cap w_out w_rem w_oob]. rewrite <- app_assoc, app_length. f_equal. lia. Qed.

Lemma reference_in items b a e : reference_ok items b a e -> In (a, e) items.
Proof. intros (_ & _ & _ & _ & l & r & -> & _). apply in_elt. Qed.
Lemma word_in items prev s a e r : word_ok items prev s a e r -> In (a, e) items.
Proof. intros (_ & _ & l & q & -> & _). apply in_elt. Qed.

Lemma replace_ok items prev s o : marked items prev s o -> forall fuel w,
  filled items -> short_tags items -> short_explicit s -> w_ok w -> length s < fuel -> length o < w_rem w ->
  replace_loop fuel items prev s w = Some (Out (w_term (put_all o w))).
Proof.
  induction 1 as [prev|prev a e a' e' rest o O Ta Te M IH|prev b a e rest o O M IH|prev s a e rest o N1 N2 W Ns M IH|prev c s o N1 N2 N3 M IH];
    intros fuel w Fi St Sh Wo Lf Lo; (destruct fuel; [lia|]).
  - cbn [replace_loop]. do 3 f_equal. unfold put_all. destruct w as [cp ot rm ob]. cbn [w_cap w_out w_rem w_oob length] in *. rewrite app_nil_r. f_equal. lia.
  - destruct (explicit a e ++ rest) as [|x y] eqn:E.
    { exfalso. unfold explicit in E. discriminate. }
    cbn [replace_loop]. rewrite <- E in *. rewrite bracket_explicit by exact O.
    destruct (Sh [] a e rest eq_refl O) as [La Le].
    rewrite (proj2 (Nat.leb_gt _ _) La), (proj2 (Nat.leb_gt _ _) Le). cbn [orb].
    pose proof (trims_length _ _ Ta). pose proof (trims_length _ _ Te).
    apply trims_unique in Ta, Te. rewrite Ta, Te. rewrite tag_whole by (rewrite tag_length; lia).
    rewrite app_length in Lo. rewrite puts_room by (first [assumption|lia]).
    rewrite IH; [rewrite put_all_app; reflexivity|exact Fi|exact St|exact (short_suffix _ _ Sh)|apply put_all_ok; [exact Wo|lia]| |cbn [put_all w_rem]; lia].
    rewrite app_length in Lf. unfold explicit in Lf. rewrite app_length in Lf. cbn [B list_ascii_of_string length] in Lf. lia.
  - destruct (reference b ++ rest) as [|x y] eqn:E.
    { exfalso. unfold reference in E. discriminate. }
    cbn [replace_loop]. rewrite <- E in *. rewrite (bracket_known _ _ _ _ _ O).
    rewrite tag_whole by exact (St _ _ (reference_in _ _ _ _ O)).
    rewrite app_length in Lo. rewrite puts_room by (first [assumption|lia]).
    rewrite IH; [rewrite put_all_app; reflexivity|exact Fi|exact St|exact (short_suffix _ _ Sh)|apply put_all_ok; [exact Wo|lia]| |cbn [put_all w_rem]; lia].
    rewrite app_length in Lf. unfold reference in Lf. rewrite app_length in Lf. cbn [B list_ascii_of_string length] in Lf. lia.
  - destruct s as [|x y]; [congruence|]. cbn [replace_loop].
    pose proof (bracket_at_spec items (x :: y)) as Bs. destruct (bracket_at items (x :: y)) as [a0 e0 r0|a0 e0 r0|] eqn:Eb.
    { destruct Bs as [B1 B2]. destruct (N1 _ _ _ B2 B1). }
    { destruct Bs as (b & B1 & B2). destruct (N2 _ _ _ _ B2 B1). }
    clear Bs. rewrite (proj2 (found_word items prev (x :: y) a e) (ex_intro _ rest W)).
    pose proof (word_in _ _ _ _ _ _ W) as I. pose proof (Fi _ _ I) as Na. destruct W as (Es & _ & _).
    rewrite tag_whole by exact (St _ _ I). rewrite app_length in Lo. rewrite puts_room by (first [assumption|lia]).
    rewrite Es in Sh, Lf |- *. rewrite drop_app, last_byte_of.
    rewrite IH; [rewrite put_all_app; reflexivity|exact Fi|exact St|exact (short_suffix _ _ Sh)|apply put_all_ok; [exact Wo|lia]| |cbn [put_all w_rem]; lia].
    rewrite app_length in Lf. destruct a; [congruence|]. cbn [length] in Lf. lia.
  - cbn [replace_loop].
    pose proof (bracket_at_spec items (c :: s)) as Bs. destruct (bracket_at items (c :: s)) as [a0 e0 r0|a0 e0 r0|] eqn:Eb.
    { destruct Bs as [B1 B2]. destruct (N1 _ _ _ B2 B1). }
    { destruct Bs as (b & B1 & B2). destruct (N2 _ _ _ _ B2 B1). }
    clear Bs. rewrite (proj2 (no_word items prev (c :: s)) N3). cbn [length] in Lo, Lf. rewrite put_room by (first [assumption|lia]).
    rewrite IH; [rewrite put_all_app; reflexivity|exact Fi|exact St|exact (short_suffix [c] _ Sh)|apply put_all_ok; [exact Wo|cbn [length]; lia]|lia|cbn [put_all w_rem length]; lia].
Qed.
Lemma marked_exists items : filled items -> forall n s prev, length s <= n -> exists o, marked items prev s o.
Proof.
  intros Fi. induction n as [|n IH]; intros s prev L; (destruct s as [|c s]; [exists []; constructor|]); [cbn in L; lia|].
  pose proof (bracket_at_spec items (c :: s)) as Bs. destruct (bracket_at items (c :: s)) as [a e r|a e r|].
  - destruct Bs as [E O]. destruct (IH r (Some "]"%char)) as [o Ho].
    { rewrite E, app_length in L. unfold explicit in L. rewrite app_length in L. cbn [B list_ascii_of_string length] in L. lia. }
    rewrite E. eexists. eapply m_explicit; [exact O|apply trim_trims|apply trim_trims|exact Ho].
  - destruct Bs as (b & E & O). destruct (IH r (Some "]"%char)) as [o Ho].
    { rewrite E, app_length in L. unfold reference in L. rewrite app_length in L. cbn [B list_ascii_of_string length] in L. lia. }
    rewrite E. eexists. eapply m_reference; [exact O|exact Ho].
  - destruct Bs as [N1 N2]. destruct (find (matches prev (c :: s)) items) as [[a e]|] eqn:Ef.
    + apply found_word in Ef as [r W]. pose proof (Fi _ _ (word_in _ _ _ _ _ _ W)) as Na. pose proof W as (Es & _).
      destruct (IH r (last_of prev a)) as [o Ho].
      { rewrite Es, app_length in L. destruct a; [congruence|]. cbn [length] in L. lia. }
      eexists. eapply m_word; [exact N1|exact N2|exact W|discriminate|exact Ho].
    + destruct (IH s (Some c)) as [o Ho]; [cbn in L; lia|]. eexists. eapply m_byte; [exact N1|exact N2|apply no_word, Ef|exact Ho].
Qed.

(** ** Bounds *)
Lemma replace_term items fuel : forall prev s w r, w_ok w -> replace_loop fuel items prev s w = Some r ->
  r = Smashed \/ exists w', w_ok w' /\ w_cap w' = w_cap w /\ r = Out (w_term w').
Proof.
  induction fuel as [|fuel IH]; intros prev s w r O H; [discriminate|]. cbn [replace_loop] in H.
  destruct s as [|c s].
  - apply Some_inj in H. right. exists w. auto.
  - destruct (bracket_at items (c :: s)).
    + destruct (_ || _)%bool; [apply Some_inj in H; left; auto|].
      destruct (IH _ _ _ _ (w_puts_lt_ok _ _ O) H) as [->|(w' & A & B1 & C)]; [auto|]. rewrite w_puts_lt_cap in B1. eauto.
    + destruct (IH _ _ _ _ (w_puts_lt_ok _ _ O) H) as [->|(w' & A & B1 & C)]; [auto|]. rewrite w_puts_lt_cap in B1. eauto.
    + destruct (find _ items) as [[a e]|].
      * destruct (IH _ _ _ _ (w_puts_lt_ok _ _ O) H) as [->|(w' & A & B1 & C)]; [auto|]. rewrite w_puts_lt_cap in B1. eauto.
      * destruct (IH _ _ _ _ (w_put_ok _ _ O) H) as [->|(w' & A & B1 & C)]; [auto|]. rewrite w_put_cap in B1. eauto.
Qed.
Lemma replace_oob items html fuel w : items <> [] -> replace_abbreviations fuel html items = Some (Out w) ->
  (w_oob w = true <-> length (w_out w) = length html * 5).
Proof.
  intros Ne H. unfold replace_abbreviations in H. destruct items; [congruence|].
  destruct (replace_term _ _ _ _ _ _ (w_ok_new _) H) as [X|(w' & [O1 O2] & C & X)]; [discriminate|].
  injection X as ->. cbn [w_term w_oob w_out]. rewrite O2. cbn [orb]. rewrite Nat.leb_le.
  cbn [w_new w_cap] in C. rewrite C in *. lia.
Qed.
Lemma replace_exact items html o fuel : items <> [] -> filled items -> short_tags items -> short_explicit html ->
  marked items None html o -> length html < fuel ->
  ((exists w, replace_abbreviations fuel html items = Some (Out w) /\ w_out w = o /\ w_oob w = false) <-> length o < length html * 5).
Proof.
  intros Ne Fi St Sh M L. split.
  - intros (w & H & E & O). unfold replace_abbreviations in H. destruct items; [congruence|].
    destruct (replace_term _ _ _ _ _ _ (w_ok_new _) H) as [X|(w' & [O1 O2] & C & X)]; [discriminate|].
    injection X as ->. cbn [w_term w_oob w_out] in *. rewrite orb_false_iff, Nat.leb_gt in O. destruct O as [_ O]. cbn [w_new w_cap] in C. subst o. lia.
  - intros Lo. unfold replace_abbreviations. destruct items as [|i items]; [congruence|].
    rewrite (replace_ok _ _ _ _ M) by (first [assumption|apply w_ok_new|cbn [w_new w_rem]; lia]).
    eexists. split; [reflexivity|]. cbn [put_all w_new w_term w_out w_oob w_cap orb app]. split; [reflexivity|]. apply Nat.leb_gt. lia.
Qed.

(** ** Endless *)
Lemma replace_endless e h w : forall fuel, replace_loop fuel [([], e)] None ("<"%char :: h) w = None.
Proof. intros fuel. revert w. induction fuel as [|fuel IH]; intros w; [reflexivity|]. cbn [replace_loop]. exact (IH _). Qed.
Lemma replace_ends items html : filled items -> forall fuel, length html < fuel -> replace_abbreviations fuel html items <> None.
Proof.
  intros Fi fuel L. unfold replace_abbreviations. destruct items as [|i items]; [discriminate|].
  generalize (w_new (length html * 5) (length html * 5)) as w. generalize (@None ascii) as prev.
  revert html L. induction fuel as [|fuel IH]; intros s L prev w; [lia|]. destruct s as [|c s]; [discriminate|]. cbn [replace_loop].
  pose proof (bracket_at_spec (i :: items) (c :: s)) as Bs. destruct (bracket_at (i :: items) (c :: s)) as [a e r|a e r|].
  - destruct Bs as [E O]. destruct (_ || _)%bool; [discriminate|]. apply IH.
    rewrite E, app_length in L. unfold explicit in L. rewrite app_length in L. cbn [B list_ascii_of_string length] in L. lia.
  - destruct Bs as (b & E & O). apply IH.
    rewrite E, app_length in L. unfold reference in L. rewrite app_length in L. cbn [B list_ascii_of_string length] in L. lia.
  - destruct (find (matches prev (c :: s)) (i :: items)) as [[a e]|] eqn:Ef; [|apply IH; cbn in L; lia].
    apply found_word in Ef as [r W]. pose proof (Fi _ _ (word_in _ _ _ _ _ _ W)) as Na. destruct W as (Es & _).
    apply IH. rewrite Es, drop_app. rewrite Es, app_length in L. destruct a; [congruence|]. cbn [length] in L. lia.
Qed.

(** ** Tags *)
Lemma tags_plain s r : no_angle s -> tags_from None (s ++ r) = tags_from None r.
Proof.
  intros [H1 H2]. induction s as [|c s IH]; [reflexivity|]. cbn [app tags_from].
  destruct (ceq c "<") eqn:E; [apply ceq_eq in E; subst c; destruct H1; left; reflexivity|].
  apply IH; intros I; [apply H1|apply H2]; right; exact I.
Qed.
Lemma tags_into t s r : ~ In ">"%char s -> tags_from (Some t) (s ++ ">"%char :: r) = (t ++ s ++ B ">") :: tags_from None r.
Proof.
  revert t. induction s as [|c s IH]; intros t H; cbn [app tags_from].
  - reflexivity.
  - destruct (ceq c ">") eqn:E; [apply ceq_eq in E; subst c; destruct H; left; reflexivity|].
    rewrite IH by (intros I; apply H; right; exact I). rewrite <- app_assoc. reflexivity.
Qed.
Lemma other_tags_tag a e r : no_angle a -> no_angle e -> other_tags (tag a e ++ r) = other_tags r.
Proof.
  intros Aa Ae. unfold other_tags, tag. rewrite <- !app_assoc.
  change (B "<abbr title=" ++ [DQ] ++ e ++ [DQ] ++ B ">" ++ a ++ B "</abbr>" ++ r)
    with ("<"%char :: (B "abbr title=" ++ [DQ] ++ e ++ [DQ] ++ ">"%char :: a ++ "<"%char :: B "/abbr" ++ ">"%char :: r)).
  replace (B "abbr title=" ++ [DQ] ++ e ++ [DQ] ++ ">"%char :: a ++ "<"%char :: B "/abbr" ++ ">"%char :: r)
    with ((B "abbr title=" ++ [DQ] ++ e ++ [DQ]) ++ ">"%char :: a ++ "<"%char :: B "/abbr" ++ ">"%char :: r) by (rewrite <- !app_assoc; reflexivity).
  cbn [tags_from]. change (ceq "<" "<") with true. cbv iota. rewrite tags_into.
  - cbn [filter]. replace (is_abbr_tag _) with true by reflexivity. cbn [negb].
    rewrite tags_plain by exact Aa. cbn [tags_from]. change (ceq "<" "<") with true. cbv iota. rewrite tags_into by (cbn; intuition discriminate).
    cbn [filter]. replace (is_abbr_tag _) with true by reflexivity. reflexivity.
  - rewrite !in_app_iff. intros [I|[I|[I|I]]]; [cbn in I; intuition discriminate|destruct I as [I|[]]; discriminate|exact (proj2 Ae I)|destruct I as [I|[]]; discriminate].
Qed.
Lemma filter_tags_cons t s s' : other_tags s = other_tags s' ->
  filter (fun t => negb (is_abbr_tag t)) (t :: tags_from None s) = filter (fun t => negb (is_abbr_tag t)) (t :: tags_from None s').
Proof. intros H. cbn [filter]. unfold other_tags in H. rewrite H. reflexivity. Qed.
Lemma tags_same items html : outside_tags items html -> forall prev s o, marked items prev s o ->
  forall x cur, html = x ++ s -> inside x = (match cur with Some _ => true | None => false end) ->
  filter (fun t => negb (is_abbr_tag t)) (tags_from cur o) = filter (fun t => negb (is_abbr_tag t)) (tags_from cur s).
Proof.
  intros (Hi & He & Hx) prev s o M.
  induction M as [prev|prev a e a' e' rest o O Ta Te M IH|prev b a e rest o O M IH|prev s a e rest o N1 N2 W Ns M IH|prev c s o N1 N2 N3 M IH];
    intros x cur Eh Ei.
  - reflexivity.
  - destruct cur as [t|].
    { destruct (Hx _ _ Eh Ei) as [_ Q]. unfold explicit in Q. rewrite <- !app_assoc in Q.
      change (B "[&gt;(" ++ a ++ B ")" ++ e ++ B "]" ++ rest) with (B "[&gt;" ++ "("%char :: a ++ B ")" ++ e ++ B "]" ++ rest) in Q. destruct (Q _ eq_refl). }
    destruct (He _ _ _ _ Eh O) as [Aa Ae].
    assert (Nx : no_angle (explicit a e)).
    { unfold explicit. destruct Aa, Ae. split; rewrite !in_app_iff; cbn [B list_ascii_of_string In]; intuition discriminate. }
    rewrite (tags_plain (explicit a e) rest Nx). change (other_tags (tag a' e' ++ o) = filter (fun t => negb (is_abbr_tag t)) (tags_from None rest)).
    rewrite other_tags_tag.
    + apply (IH (x ++ explicit a e) None); [rewrite Eh, <- app_assoc; reflexivity|].
      unfold inside in *. rewrite fold_left_app, Ei. clear - Nx. destruct Nx as [Nx _]. induction (explicit a e) as [|c l IH]; [reflexivity|]. cbn [fold_left].
      replace (step false c) with false; [apply IH; intros I; apply Nx; right; exact I|]. unfold step. symmetry. apply ceq_neq. intros ->. apply Nx. left. reflexivity.
    + destruct Ta as (_ & u & v & -> & _ & _). destruct Aa. split; rewrite !in_app_iff in *; tauto.
    + destruct Te as (_ & u & v & -> & _ & _). destruct Ae. split; rewrite !in_app_iff in *; tauto.
  - destruct cur as [t|].
    { destruct (Hx _ _ Eh Ei) as [_ Q]. unfold reference in Q. rewrite <- !app_assoc in Q. destruct (Q _ eq_refl). }
    pose proof (reference_in _ _ _ _ O) as I. destruct (Hi _ _ I) as [Aa Ae]. destruct O as (Lb & Bb & _ & Tb & _).
    assert (Nb : no_angle b).
    { destruct Tb as (_ & u & v & -> & Wu & Wv). unfold white in *. rewrite Forall_forall in Wu, Wv. destruct Aa.
      split; rewrite !in_app_iff; intros [J|[J|J]]; try tauto; [specialize (Wu _ J)|specialize (Wv _ J)|specialize (Wu _ J)|specialize (Wv _ J)]; discriminate. }
    assert (Nx : no_angle (reference b)).
    { unfold reference. destruct Nb. split; rewrite !in_app_iff; cbn [B list_ascii_of_string In]; intuition discriminate. }
    rewrite (tags_plain _ rest Nx). change (other_tags (tag a e ++ o) = filter (fun t => negb (is_abbr_tag t)) (tags_from None rest)).
    rewrite other_tags_tag by assumption.
    apply (IH (x ++ reference b) None); [rewrite Eh, <- app_assoc; reflexivity|].
    unfold inside in *. rewrite fold_left_app, Ei. clear - Nx. destruct Nx as [Nx _]. induction (reference b) as [|c l IH]; [reflexivity|]. cbn [fold_left].
    replace (step false c) with false; [apply IH; intros I; apply Nx; right; exact I|]. unfold step. symmetry. apply ceq_neq. intros ->. apply Nx. left. reflexivity.
  - pose proof (word_in _ _ _ _ _ _ W) as I. destruct W as (Es & _). destruct cur as [t|].
    { destruct (Hx _ _ Eh Ei) as [Q _]. destruct (Q _ _ _ I Es). }
    destruct (Hi _ _ I) as [Aa Ae]. rewrite Es, (tags_plain _ rest Aa).
    change (other_tags (tag a e ++ o) = filter (fun t => negb (is_abbr_tag t)) (tags_from None rest)). rewrite other_tags_tag by assumption.
    apply (IH (x ++ a) None); [rewrite Eh, Es, <- app_assoc; reflexivity|].
    unfold inside in *. rewrite fold_left_app, Ei. clear - Aa. destruct Aa as [Nx _]. induction a as [|c l IH]; [reflexivity|]. cbn [fold_left].
    replace (step false c) with false; [apply IH; intros I; apply Nx; right; exact I|]. unfold step. symmetry. apply ceq_neq. intros ->. apply Nx. left. reflexivity.
  - assert (Eh2 : html = (x ++ [c]) ++ s) by (rewrite Eh, <- app_assoc; reflexivity).
    assert (Ei2 : inside (x ++ [c]) = step (inside x) c) by (unfold inside; rewrite fold_left_app; reflexivity).
    cbn [tags_from]. destruct cur as [t|]; rewrite Ei in Ei2; cbn [step] in Ei2.
    + destruct (ceq c ">") eqn:E.
      * cbn [filter]. rewrite (IH (x ++ [c]) None Eh2 Ei2). reflexivity.
      * apply (IH (x ++ [c]) (Some (t ++ [c])) Eh2 Ei2).
    + destruct (ceq c "<") eqn:E.
      * apply (IH (x ++ [c]) (Some [c]) Eh2 Ei2).
      * apply (IH (x ++ [c]) None Eh2 Ei2).
Qed.

Lemma marked_segs items prev s o : marked items prev s o ->
  exists l, s = concat (map seg_in l) /\ o = concat (map seg_out l) /\ Forall (seg_ok items) l.
Proof.
  induction 1 as [prev|prev a e a' e' rest o O Ta Te M (l & -> & -> & F)|prev b a e rest o O M (l & -> & -> & F)|prev s a e rest o N1 N2 W Ns M (l & -> & -> & F)|prev c s o N1 N2 N3 M (l & -> & -> & F)].
  - exists []. auto.
  - exists (Tagged (explicit a e) a' e' :: l). split; [reflexivity|]. split; [reflexivity|]. constructor; [|exact F]. right. right. exists a, e. auto.
  - exists (Tagged (reference b) a e :: l). split; [reflexivity|]. split; [reflexivity|]. constructor; [|exact F]. right. left. exists b. auto.
  - exists (Tagged a a e :: l). split; [exact (proj1 W)|]. split; [reflexivity|]. constructor; [|exact F]. left. split; [reflexivity|exact (word_in _ _ _ _ _ _ W)].
  - exists (Same c :: l). split; [reflexivity|]. split; [reflexivity|]. constructor; [exact I|exact F].
Qed.
