(** Lemmas for C214-C217. *)
From Verif Require Import Base BaseL M_Pass M_Hash S_Hash L_Divs L_Divs2 L_Pass.

Lemma tag_byte_spec c : tag_byte c = true <-> ~ ender c.
Proof.
  assert (H : forall c, (tag_byte c = true <-> ~ ender c)); [|apply H]. clear.
  intros c. unfold tag_byte, ender. rewrite !andb_true_iff, !negb_true_iff, !ceq_neq. cbn [In B list_ascii_of_string]. change " "%char with SP. split.
  - intros H [I|I]; [|tauto]. intuition congruence.
  - intros H. repeat split; intros E; apply H; subst; auto 20.
Qed.
Lemma tag_first_spec c : tag_first c = true <-> alnum c.
Proof.
  revert c. assert (H : forall c, Bool.eqb (tag_first c) (existsb (fun d => ceq c d) (B "abcdefghijklmnopqrstuvwxyzABCDEFGHIJKLMNOPQRSTUVWXYZ0123456789")) = true) by (apply byte_forall; vm_compute; reflexivity).
  intros c. specialize (H c). apply eqb_prop in H. rewrite H. unfold alnum. rewrite existsb_exists. split; [intros (d & I & E); apply ceq_eq in E as ->; exact I|intros I; exists c; split; [exact I|apply ceq_refl]].
Qed.
Lemma opening_eq styled : opening styled = open_tag styled.
Proof. destruct styled; reflexivity. Qed.
Lemma first_byte c : tag_first c = true -> tag_byte c = true.
Proof. revert c. assert (H : forall c, implb (tag_first c) (tag_byte c) = true) by (apply byte_forall; vm_compute; reflexivity). intros c E. specialize (H c). rewrite E in H. exact H. Qed.
(** In the middle of a line *)
Definition inside := Place false 0 false.
Lemma spans_weak open s h : Spans open false s h -> match s with [] => True | c :: _ => c <> "#"%char end -> Spans open true s h.
Proof. intros H N. inversion H; subst; [constructor|]. eapply Sp_byte; [|eassumption|eassumption]. intros _ E. contradiction. Qed.
Lemma spans_tail open c s h : Spans open false (c :: s) h -> exists free h', h = c :: h' /\ (free = true <-> c = SP \/ c = TAB) /\ Spans open free s h'.
Proof. intros H. inversion H; subst. eauto. Qed.
Lemma look_inside c : c <> NL -> look c inside = inside.
Proof. intros N. unfold look, inside. cbn [p_start]. apply ceq_neq in N. rewrite N. reflexivity. Qed.
Lemma look_code c k b : c <> NL -> exists k' b', look c (Place b k true) = Place b' k' true.
Proof.
  intros N. apply ceq_neq in N. unfold look. cbn [p_start p_indent p_code]. rewrite N. destruct b; [|eauto]. destruct (ceq c TAB); [eauto|]. destruct (ceq c SP); [eauto|]. cbn [negb andb]. destruct (negb (ceq c CR)); eauto.
Qed.
Section one.
Variables (styled : bool).
Let run := fun fuel => hashes fuel styled.
(** what comes behind the line *)
Definition behind (s : str) : Prop := s = [] \/ exists r, s = NL :: r.
Lemma code_run l : ~ In NL l -> forall fuel prev b k s w, length (l ++ s) < fuel -> fits w -> exists fuel' prev' b' k' w',
  run fuel prev (Place b k true) (l ++ s) w = run fuel' prev' (Place b' k' true) s w' /\ length s < fuel' /\ fits w' /\ w_out w' = w_out w ++ l.
Proof.
  induction l as [|c l IH]; intros N fuel prev b k s w L F; [do 5 eexists; split; [reflexivity|]; rewrite app_nil_r; auto|].
  destruct fuel as [|fuel]; [cbn in L; lia|]. cbn [run hashes app]. destruct (look_code c k b) as (k' & b' & E); [intros ->; apply N; left; reflexivity|]. unfold run at 1. cbn [hashes app]. rewrite E. cbn [p_code].
  destruct (byte_fits c w F) as [F1 O1]. destruct (IH (fun I => N (or_intror I)) fuel (Some c) b' k' s (byte c w)) as (f2 & p2 & b2 & k2 & w2 & E2 & L2 & F2 & O2); [cbn in L; lia|exact F1|].
  exists f2, p2, b2, k2, w2. split; [exact E2|]. split; [exact L2|]. split; [exact F2|]. rewrite O2, O1, <- app_assoc. reflexivity.
Qed.
Lemma tag_end_open (b s t : str) : Forall (fun c => ~ ender c) b -> match s with [] => True | c :: _ => ender c /\ c <> "#"%char end -> behind t -> tag_end (b ++ s ++ t) = (b, s ++ t).
Proof.
  intros Fb Hs Ht. unfold tag_end. assert (E : span tag_byte (b ++ s ++ t) = (b, s ++ t)).
  { apply span_word; [apply Forall_forall; intros x I; apply tag_byte_spec; exact (proj1 (Forall_forall _ _) Fb x I)|]. destruct s as [|c s]; cbn [app].
    - destruct Ht as [->|[r ->]]; [left; reflexivity|right; exists NL, r; split; reflexivity].
    - right. exists c, (s ++ t). split; [reflexivity|]. apply bool_false. rewrite tag_byte_spec. tauto. }
  rewrite E. destruct s as [|c s]; cbn [app].
  - destruct Ht as [->|[r ->]]; reflexivity.
  - destruct Hs as [_ N]. apply ceq_neq in N. rewrite N. reflexivity.
Qed.
Lemma tag_end_closed (b s : str) : Forall (fun c => ~ ender c) b -> tag_end (b ++ B "#" ++ s) = (b ++ B "#", s).
Proof.
  intros Fb. unfold tag_end. rewrite (span_word tag_byte b (B "#" ++ s)); [reflexivity| |right; do 2 eexists; split; reflexivity].
  apply Forall_forall. intros x I. apply tag_byte_spec. exact (proj1 (Forall_forall _ _) Fb x I).
Qed.
Lemma inside_run free l h : Spans (open_tag styled) free l h -> ~ In NL l -> forall fuel prev s w, behind s -> length (l ++ s) < fuel -> fits w ->
  (free = true -> may_start prev = true) -> (may_start prev = true -> free = true \/ match l with c :: _ => c <> "#"%char | [] => True end) ->
  exists fuel' prev' w', run fuel prev inside (l ++ s) w = run fuel' prev' inside s w' /\ length s < fuel' /\ fits w' /\ w_out w' = w_out w ++ h.
Proof.
  induction 1 as [free|a b l h Ha Fb Hl Hs IH|a b l h Ha Fb Hs IH|free free' c l h Hc Hf Hs IH]; intros N fuel prev s w Hb L F P1 P2.
  - do 3 eexists. split; [reflexivity|]. rewrite app_nil_r. auto.
  - destruct fuel as [|fuel]; [cbn in L; lia|]. unfold run at 1. cbn [hashes app B list_ascii_of_string]. rewrite look_inside by discriminate. cbn [p_code inside].
    change (ceq "#"%char "#"%char) with true. rewrite (P1 eq_refl). cbn [andb]. rewrite (proj2 (tag_first_spec a) Ha).
    assert (E : tag_end (a :: (b ++ l) ++ s) = (a :: b, l ++ s)).
    { rewrite <- app_assoc. apply (tag_end_open (a :: b)); [constructor; [apply tag_byte_spec, first_byte, tag_first_spec, Ha|exact Fb]|exact Hl|exact Hb]. }
    rewrite E. cbn [fst snd]. rewrite opening_eq. destruct (block_fits 100 (open_tag styled ++ ("#"%char :: a :: b) ++ B "</span>") w F) as [F1 O1]; [lia|].
    destruct (IH (fun I => N (or_intror (or_intror (in_or_app _ _ _ (or_intror I))))) fuel (Some (last (a :: b) "#"%char)) s _ Hb (ltac:(cbn in L; rewrite !app_length in *; lia)) F1) as (f2 & p2 & w2 & E2 & L2 & F2 & O2);
      [discriminate|intros _; right; destruct l as [|d l]; [exact I|apply Hl]|].
    exists f2, p2, w2. split; [exact E2|]. split; [exact L2|]. split; [exact F2|]. rewrite O2, O1. rewrite <- !app_assoc. reflexivity.
  - destruct fuel as [|fuel]; [cbn in L; lia|]. unfold run at 1. cbn [hashes app B list_ascii_of_string]. rewrite look_inside by discriminate. cbn [p_code inside].
    change (ceq "#"%char "#"%char) with true. rewrite (P1 eq_refl). cbn [andb]. rewrite (proj2 (tag_first_spec a) Ha).
    assert (E : tag_end (a :: (b ++ "#"%char :: l) ++ s) = (a :: b ++ B "#", l ++ s)).
    { rewrite <- app_assoc. apply (tag_end_closed (a :: b)). constructor; [apply tag_byte_spec, first_byte, tag_first_spec, Ha|exact Fb]. }
    rewrite E. cbn [fst snd]. rewrite opening_eq. destruct (block_fits 100 (open_tag styled ++ ("#"%char :: a :: b ++ B "#") ++ B "</span>") w F) as [F1 O1]; [lia|].
    assert (La : last (a :: b ++ B "#") "#"%char = "#"%char) by (change (a :: b ++ B "#") with ((a :: b) ++ B "#"); apply last_last). rewrite La.
    destruct (IH (ltac:(clear - N; intros I; apply N; rewrite !in_app_iff; tauto)) fuel (Some "#"%char) s _ Hb (ltac:(cbn in L; rewrite !app_length in *; cbn in L; lia)) F1) as (f2 & p2 & w2 & E2 & L2 & F2 & O2);
      [discriminate|discriminate|].
    exists f2, p2, w2. split; [exact E2|]. split; [exact L2|]. split; [exact F2|]. rewrite O2, O1. rewrite <- !app_assoc. cbn [app]. rewrite <- !app_assoc. reflexivity.
  - destruct fuel as [|fuel]; [cbn in L; lia|]. assert (Nc : c <> NL) by (intros ->; apply N; left; reflexivity).
    assert (E : run (S fuel) prev inside ((c :: l) ++ s) w = run fuel (Some c) inside (l ++ s) (byte c w)).
    { unfold run. cbn [hashes app]. rewrite look_inside by exact Nc. cbn [p_code inside]. destruct (ceq c "#"%char && may_start prev) eqn:Q; [|reflexivity]. apply andb_true_iff in Q as [Qc Qp]. apply ceq_eq in Qc as ->.
      assert (Fr : free = true) by (destruct (P2 Qp) as [X|X]; [exact X|congruence]). specialize (Hc Fr eq_refl). destruct l as [|d l]; cbn [app].
      - destruct Hb as [->|[r ->]]; reflexivity.
      - rewrite (bool_false (tag_first d)) by (rewrite tag_first_spec; exact Hc). reflexivity. }
    rewrite E. destruct (byte_fits c w F) as [F1 O1].
    assert (M : may_start (Some c) = true <-> free' = true).
    { unfold may_start. rewrite !orb_true_iff, !ceq_eq, Hf. tauto. }
    destruct (IH (fun I => N (or_intror I)) fuel (Some c) s _ Hb (ltac:(cbn in L; lia)) F1) as (f2 & p2 & w2 & E2 & L2 & F2 & O2); [apply M|intros X; left; apply M, X|].
    exists f2, p2, w2. split; [exact E2|]. split; [exact L2|]. split; [exact F2|]. rewrite O2, O1, <- app_assoc. reflexivity.
Qed.
(** The indentation *)
Definition code_from (k : nat) (l : str) : Prop := exists u r, l = u ++ r /\ Forall (fun c => c = SP \/ c = TAB \/ c = CR) u /\ (In TAB u \/ 4 <= k + count_occ ascii_dec u SP).
Lemma look_start c k : c <> NL -> look c (Place true k false) = if ceq c TAB then Place true 0 true else if ceq c SP then Place true (k + 1) (4 <=? k + 1) else if ceq c CR then Place true k false else inside.
Proof. intros N. apply ceq_neq in N. unfold look. cbn [p_start p_indent p_code]. rewrite N. destruct (ceq c TAB), (ceq c SP), (ceq c CR); reflexivity. Qed.
Lemma line_run l : ~ In NL l -> forall free k h fuel prev s w, k < 4 -> (code_from k l /\ h = l \/ ~ code_from k l /\ Spans (open_tag styled) free l h) -> behind s -> length (l ++ s) < fuel -> fits w -> (free = true <-> may_start prev = true) ->
  exists fuel' prev' p' w', run fuel prev (Place true k false) (l ++ s) w = run fuel' prev' p' s w' /\ length s < fuel' /\ fits w' /\ w_out w' = w_out w ++ h.
Proof.
  induction l as [|c l IH]; intros N free k h fuel prev s w K H Hb L F P.
  - assert (h = []) as ->.
    { destruct H as [[_ ->]|[_ H]]; [reflexivity|]. inversion H. reflexivity. }
    do 4 eexists. split; [reflexivity|]. rewrite app_nil_r. auto.
  - assert (Nc : c <> NL) by (intros ->; apply N; left; reflexivity). assert (Nl : ~ In NL l) by (intros I; apply N; right; exact I).
    pose proof (look_start c k Nc) as LK. destruct fuel as [|fuel]; [cbn in L; lia|]. destruct (byte_fits c w F) as [F1 O1].
    assert (Copy : c = SP \/ c = TAB \/ c = CR -> run (S fuel) prev (Place true k false) ((c :: l) ++ s) w = run fuel (Some c) (look c (Place true k false)) (l ++ s) (byte c w)).
    { intros C. unfold run. cbn [hashes app]. destruct (p_code _); [reflexivity|]. destruct C as [->|[->| ->]]; reflexivity. }
    assert (Tail : c = SP \/ c = TAB \/ c = CR -> ~ code_from k (c :: l) -> exists h', h = c :: h' /\ Spans (open_tag styled) (ceq c SP || ceq c TAB) l h').
    { intros C Q. destruct H as [[X _]|[_ X]]; [contradiction|]. inversion X as [ |a b l0 h0| |free0 free' c0 l0 h0 _ Hf Hs]; subst; [destruct C as [C|[C|C]]; discriminate|destruct C as [C|[C|C]]; discriminate|].
      exists h0. split; [reflexivity|]. replace (ceq c SP || ceq c TAB) with free'; [exact Hs|]. apply eq_true_iff_eq. rewrite Hf, orb_true_iff, !ceq_eq. reflexivity. }
    assert (Grow : forall j, code_from j l -> (c = SP \/ c = TAB \/ c = CR) -> (c = SP /\ j = k + 1 \/ c <> SP /\ j = k) -> code_from k (c :: l)).
    { intros j (u & r & -> & Fu & Q) C J. exists (c :: u), r. split; [reflexivity|]. split; [constructor; assumption|]. destruct Q as [Q|Q]; [left; right; exact Q|right]. cbn [count_occ]. destruct (ascii_dec c SP) as [E|E]; destruct J as [[J1 J2]|[J1 J2]]; try contradiction; lia. }
    assert (Shrink : forall j, (c = SP /\ j = k + 1 /\ j < 4 \/ c = CR /\ j = k) -> code_from k (c :: l) -> code_from j l).
    { intros j C (u & r & E & Fu & Q). destruct u as [|d u].
      - destruct Q as [[]|Q]. cbn in Q. lia.
      - injection E as <- ->. exists u, r. split; [reflexivity|]. split; [inversion Fu; assumption|]. destruct Q as [[Q|Q]|Q]; [destruct C as [[C _]|[C _]]; subst; discriminate|left; exact Q|right]. cbn [count_occ] in Q. destruct (ascii_dec c SP) as [X|X]; destruct C as [[C C2]|[C C2]]; subst; try discriminate; try contradiction; lia. }
    assert (Code : forall b0 k0, c = SP \/ c = TAB \/ c = CR -> look c (Place true k false) = Place b0 k0 true -> code_from k (c :: l) -> exists fuel' prev' p' w', run (S fuel) prev (Place true k false) ((c :: l) ++ s) w = run fuel' prev' p' s w' /\ length s < fuel' /\ fits w' /\ w_out w' = w_out w ++ h).
    { intros b0 k0 C E Q. rewrite (Copy C), E. destruct (code_run l Nl fuel (Some c) b0 k0 s (byte c w)) as (f2 & p2 & b2 & k2 & w2 & E2 & L2 & F2 & O2); [cbn in L; lia|exact F1|].
      assert (h = c :: l) as -> by (destruct H as [[_ ->]|[X _]]; [reflexivity|contradiction]).
      do 4 eexists. split; [exact E2|]. split; [exact L2|]. split; [exact F2|]. rewrite O2, O1, <- app_assoc. reflexivity. }
    destruct (ascii_dec c TAB) as [->|T].
    { refine (Code _ _ _ LK _); [auto|]. exists [TAB], l. split; [reflexivity|]. split; [constructor; auto|left; left; reflexivity]. }
    assert (T' := T). apply ceq_neq in T'. rewrite T' in LK. destruct (ascii_dec c SP) as [->|Sx].
    + change (ceq SP SP) with true in LK. cbn iota in LK. destruct (4 <=? k + 1) eqn:Q.
      * refine (Code _ _ _ LK _); [auto|]. exists [SP], l. split; [reflexivity|]. split; [constructor; auto|right; cbn; apply Nat.leb_le in Q; lia].
      * apply Nat.leb_gt in Q. rewrite (Copy (or_introl eq_refl)), LK.
        assert (HH : exists h', h = SP :: h' /\ (code_from (k + 1) l /\ h' = l \/ ~ code_from (k + 1) l /\ Spans (open_tag styled) true l h')).
        { destruct H as [[X ->]|[X Y]].
          - exists l. split; [reflexivity|]. left. split; [|reflexivity]. apply Shrink; auto.
          - destruct (Tail (or_introl eq_refl) X) as (h' & -> & Z). exists h'. split; [reflexivity|]. right. split; [|exact Z]. intros W. apply X. apply (Grow _ W); auto. }
        destruct HH as (h' & -> & HH). destruct (IH Nl true (k + 1) h' fuel (Some SP) s (byte SP w) Q HH Hb (ltac:(cbn in L; lia)) F1) as (f2 & p2 & q2 & w2 & E2 & L2 & F2 & O2); [split; reflexivity|].
        do 4 eexists. split; [exact E2|]. split; [exact L2|]. split; [exact F2|]. rewrite O2, O1, <- app_assoc. reflexivity.
    + assert (S' := Sx). apply ceq_neq in S'. rewrite S' in LK. destruct (ascii_dec c CR) as [->|Cx].
      * change (ceq CR CR) with true in LK. cbn iota in LK. rewrite (Copy (or_intror (or_intror eq_refl))), LK.
        assert (HH : exists h', h = CR :: h' /\ (code_from k l /\ h' = l \/ ~ code_from k l /\ Spans (open_tag styled) false l h')).
        { destruct H as [[X ->]|[X Y]].
          - exists l. split; [reflexivity|]. left. split; [|reflexivity]. apply Shrink; auto.
          - destruct (Tail (or_intror (or_intror eq_refl)) X) as (h' & -> & Z). exists h'. split; [reflexivity|]. right. split; [|exact Z]. intros W. apply X. apply (Grow _ W); auto. }
        destruct HH as (h' & -> & HH). destruct (IH Nl false k h' fuel (Some CR) s (byte CR w) K HH Hb (ltac:(cbn in L; lia)) F1) as (f2 & p2 & q2 & w2 & E2 & L2 & F2 & O2); [split; discriminate|].
        do 4 eexists. split; [exact E2|]. split; [exact L2|]. split; [exact F2|]. rewrite O2, O1, <- app_assoc. reflexivity.
      * assert (C' := Cx). apply ceq_neq in C'. rewrite C' in LK.
        assert (NC : ~ code_from k (c :: l)).
        { intros (u & r & E & Fu & Q). destruct u as [|d u]; [destruct Q as [[]|Q]; cbn in Q; lia|]. injection E as <- _. inversion Fu as [|x y Hx Hy]; subst. destruct Hx as [X|[X|X]]; contradiction. }
        destruct H as [[X _]|[_ X]]; [contradiction|]. assert (E : run (S fuel) prev (Place true k false) ((c :: l) ++ s) w = run (S fuel) prev inside ((c :: l) ++ s) w).
        { unfold run. cbn [hashes app]. rewrite LK, look_inside by exact Nc. reflexivity. }
        rewrite E. destruct (inside_run free (c :: l) h X N (S fuel) prev s w Hb L F) as (f2 & p2 & w2 & E2 & R); [apply P|intros Y; left; apply P, Y|]. exists f2, p2, inside, w2. split; [exact E2|exact R].
Qed.
Lemma hashed_run t h : Hashed (open_tag styled) t h -> forall fuel prev w, length t < fuel -> fits w -> may_start prev = true ->
  fits (run fuel prev (Place true 0 false) t w) /\ w_out (run fuel prev (Place true 0 false) t w) = w_out w ++ h.
Proof.
  induction 1 as [l h N Hl|l h s d N Hl Hs IH]; intros fuel prev w L F P.
  - destruct (line_run l N true 0 h fuel prev [] w) as (f2 & p2 & q2 & w2 & E2 & L2 & F2 & O2); [lia|exact Hl|left; reflexivity|rewrite app_nil_r; exact L|exact F|rewrite P; tauto|].
    rewrite app_nil_r in E2. rewrite E2. unfold run. destruct f2; cbn; split; assumption.
  - destruct (line_run l N true 0 h fuel prev ([NL] ++ s) w) as (f2 & p2 & q2 & w2 & E2 & L2 & F2 & O2); [lia|exact Hl|right; exists s; reflexivity|exact L|exact F|rewrite P; tauto|].
    rewrite E2. destruct f2 as [|f2]; [cbn in L2; lia|]. assert (E : run (S f2) p2 q2 ([NL] ++ s) w2 = run f2 (Some NL) (Place true 0 false) s (byte NL w2)).
    { unfold run. cbn [hashes app]. assert (look NL q2 = Place true 0 false) as -> by (unfold look; reflexivity). reflexivity. }
    rewrite E. destruct (byte_fits NL w2 F2) as [F3 O3]. destruct (IH f2 (Some NL) (byte NL w2)) as [F4 O4]; [cbn in L2; lia|exact F3|reflexivity|]. split; [exact F4|]. rewrite O4, O3, O2, <- !app_assoc. reflexivity.
Qed.
Lemma hashtags_spec t h : Hashed (open_tag styled) t h -> hashtags styled t = Out h.
Proof.
  intros H. destruct (hashed_run t h H (S (length t)) None (start (length t * 3 + 1))) as [F O]; [lia|apply start_fits; lia|reflexivity|]. unfold hashtags. rewrite finish_fits by exact F. f_equal. exact O.
Qed.
End one.
(** ** Every text *)
Lemma spans_total open s : forall free, exists h, Spans open free s h.
Proof.
  assert (H : forall n s free, length s < n -> exists h, Spans open free s h).
  { induction n as [|n IH]; intros t free L; [lia|]. destruct t as [|c t]; [eexists; constructor|]. cbn [length] in L.
    assert (By : (free = true -> c = "#"%char -> match t with [] => True | a :: _ => ~ alnum a end) -> exists h, Spans open free (c :: t) h).
    { intros Hc. destruct (IH t (ceq c SP || ceq c TAB)) as [h H]; [lia|]. exists (c :: h). eapply Sp_byte; [exact Hc| |exact H]. rewrite orb_true_iff, !ceq_eq. reflexivity. }
    destruct free; [|apply By; discriminate]. destruct (ascii_dec c "#"%char) as [->|C]; [|apply By; intros _ X; contradiction]. destruct t as [|a t]; [apply By; auto|].
    destruct (tag_first a) eqn:A; [|apply By; intros _ _ X; apply tag_first_spec in X; congruence]. apply tag_first_spec in A.
    destruct (span tag_byte t) as [b r] eqn:E. destruct (span_shape tag_byte t) as (Q2 & Q3 & Q1). rewrite E in Q1, Q2, Q3. cbn [fst snd] in *.
    assert (Fb : Forall (fun c => ~ ender c) b) by (apply Forall_forall; intros x I; apply tag_byte_spec; exact (proj1 (Forall_forall _ _) Q2 x I)). subst t. cbn [length] in L. rewrite app_length in L.
    destruct r as [|d r].
    - destruct (IH [] false) as [h H]; [cbn; lia|]. eexists. apply (Sp_tag open a b [] h A Fb I H).
    - destruct (ascii_dec d "#"%char) as [->|D].
      + cbn [length] in L. destruct (IH r false) as [h H]; [lia|]. eexists. apply (Sp_closed open a b r h A Fb H).
      + destruct (IH (d :: r) false) as [h H]; [cbn [length] in *; lia|]. eexists. apply (Sp_tag open a b (d :: r) h A Fb); [|exact H]. split; [|exact D].
        destruct (tag_byte d) eqn:T; [rewrite (Q3 d r eq_refl) in T; discriminate|]. unfold tag_byte in T. rewrite !andb_false_iff, !negb_false_iff, !ceq_eq in T. unfold ender. cbn [In B list_ascii_of_string]. change " "%char with SP. intuition (subst; auto 20). }
  intros free. exact (H (S (length s)) s free (Nat.lt_succ_diag_r _)).
Qed.
Definition run_of (c : ascii) : bool := ceq c SP || ceq c TAB || ceq c CR.
Lemma code_dec l : code_line l \/ ~ code_line l.
Proof.
  destruct (span_shape run_of l) as (F & H & E). destruct (span run_of l) as [u r]. cbn [fst snd] in *.
  assert (Fu : Forall (fun c => c = SP \/ c = TAB \/ c = CR) u) by (apply Forall_forall; intros x I; pose proof (proj1 (Forall_forall _ _) F x I) as X; unfold run_of in X; rewrite !orb_true_iff, !ceq_eq in X; tauto).
  assert (Sub : forall v q, l = v ++ q -> Forall (fun c => c = SP \/ c = TAB \/ c = CR) v -> exists z, u = v ++ z).
  { intros v q E2 Fv. rewrite E in E2. destruct (Nat.le_gt_cases (length v) (length u)) as [C|C].
    - destruct (app_split u r v q E2 C) as (e & -> & _). eauto.
    - symmetry in E2. destruct (app_split v q u r E2 (Nat.lt_le_incl _ _ C)) as (e & -> & Er). destruct e as [|c e]; [rewrite app_length in C; cbn in C; lia|]. exfalso. apply Forall_app in Fv as [_ Fv]. inversion Fv as [|x y Hc _]; subst.
      specialize (H c (e ++ q) eq_refl). unfold run_of in H. rewrite !orb_false_iff, !ceq_neq in H. tauto. }
  destruct (in_dec ascii_dec TAB u) as [T|T]; [left; exists u, r; auto|]. destruct (le_lt_dec 4 (count_occ ascii_dec u SP)) as [C|C]; [left; exists u, r; auto|]. right. intros (v & q & E2 & Fv & Q). destruct (Sub v q E2 Fv) as (z & ->).
  destruct Q as [Q|Q]; [apply T, in_or_app; auto|]. rewrite count_occ_app in C. lia.
Qed.
Lemma line_total open l : exists h, Line open l h.
Proof. destruct (code_dec l) as [C|C]; [exists l; left; auto|]. destruct (spans_total open l true) as [h H]. exists h. right. auto. Qed.
Lemma hashed_total open t : exists h, Hashed open t h.
Proof.
  assert (H : forall n t, length t < n -> exists h, Hashed open t h).
  { induction n as [|n IH]; intros s L; [lia|]. destruct (strchr_cut NL s) as [N|(l & r & -> & N)].
    - destruct (line_total open s) as [h H]. exists h. constructor; assumption.
    - destruct (line_total open l) as [h H]. destruct (IH r) as [d D]; [rewrite app_length in L; cbn in L; lia|]. exists (h ++ [NL] ++ d). exact (H_line open l h r d N H D). }
  exact (H (S (length t)) t (Nat.lt_succ_diag_r _)).
Qed.
Lemma spans_plain open free s : ~ In "#"%char s -> Spans open free s s.
Proof.
  revert free. induction s as [|c s IH]; intros free N; [constructor|]. eapply (Sp_byte open free (ceq c SP || ceq c TAB)); [intros _ ->; exfalso; apply N; left; reflexivity|rewrite orb_true_iff, !ceq_eq; reflexivity|apply IH; intros I; apply N; right; exact I].
Qed.
Lemma hashed_plain open t : ~ In "#"%char t -> Hashed open t t.
Proof.
  assert (H : forall n t, length t < n -> ~ In "#"%char t -> Hashed open t t).
  { induction n as [|n IH]; intros s L N; [lia|]. assert (Ln : forall l, ~ In "#"%char l -> Line open l l) by (intros l X; destruct (code_dec l); [left; auto|right; split; [assumption|apply spans_plain, X]]). destruct (strchr_cut NL s) as [M|(l & r & -> & M)]; [constructor; auto|].
    apply (H_line open l l r r M); [apply Ln; intros I; apply N, in_or_app; auto|]. apply IH; [rewrite app_length in L; cbn in L; lia|intros I; apply N, in_or_app; right; right; exact I]. }
  exact (H (S (length t)) t (Nat.lt_succ_diag_r _)).
Qed.
Lemma hashed_app open p hp q hq : Hashed open p hp -> Hashed open q hq -> Hashed open (p ++ [NL] ++ q) (hp ++ [NL] ++ hq).
Proof. induction 1 as [l h N H|l h s d N H S IH]; intros Q; [exact (H_line open l h q hq N H Q)|]. rewrite <- !app_assoc. apply (H_line open l h _ _ N H). exact (IH Q). Qed.
Lemma hashed_code open l : ~ In NL l -> code_line l -> Hashed open l l.
Proof. intros N C. apply H_last; [exact N|]. left. auto. Qed.
