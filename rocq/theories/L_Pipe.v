(** Lemmas for the properties of running external commands. *)
From Verif Require Import Base BaseL M_Pipe S_Pipe.

Section Safety.
  Context {C : Type} (next : C -> action C) (K : nat) (json : str).

  Definition inv (s : st C) : Prop :=
    match s_par s with
    | PWrite rest => json = s_got s ++ s_in s ++ rest /\ s_sent s = s_out s
    | PRead buf cap over => json = s_got s ++ s_in s /\ s_sent s = buf ++ s_out s /\
        over = false /\ 4096 <= cap /\ length buf <= cap
    | PDone buf over status => json = s_got s ++ s_in s /\ s_sent s = buf /\ over = false /\
        s_out s = [] /\ s_child s = inr status
    | PKilled => (exists rest, json = s_got s ++ rest) /\ exists status, s_child s = inr status
    end.

  Lemma grow_enough size cap : 4096 <= cap -> size <= cap -> size + 4096 <= grow size cap.
  Proof. intros. unfold grow. destruct (Nat.ltb_spec cap (size + 4096)); lia. Qed.

  Lemma inv_step s s' : step next K s s' -> inv s -> inv s'.
  Proof.
    intros H. destruct H; unfold inv; cbn [s_par s_in s_out s_child s_got s_sent].
    - intros [-> ->]. split; [rewrite <- !app_assoc; reflexivity|reflexivity].
    - intros [-> _]. eauto.
    - rewrite app_nil_r. intros [-> ->]. split; [reflexivity|]. split; [reflexivity|]. split; [reflexivity|].
      change (length (@nil ascii)) with 0. clear. lia.
    - intros (-> & -> & -> & H1 & H2). pose proof (grow_enough (length buf) cap H1 H2).
      rewrite app_length. split; [reflexivity|]. split; [rewrite <- app_assoc; reflexivity|].
      cbn [orb]. split; [apply Nat.ltb_ge; assumption|]. lia.
    - intros (-> & -> & -> & H1 & H2). pose proof (grow_enough (length buf) cap H1 H2).
      rewrite app_nil_r. repeat split. cbn [orb]. apply Nat.leb_gt. lia.
    - destruct par; intros I; rewrite <- ?app_assoc in *; try tauto.
      + destruct I as (_ & _ & _ & _ & X). discriminate.
      + destruct I as (_ & ? & X). discriminate.
    - destruct par; intros I; try tauto.
      + destruct I as (_ & _ & _ & _ & X). discriminate.
      + destruct I as (_ & ? & X). discriminate.
    - destruct par; intros I; try tauto.
      + destruct I as (-> & ->). auto.
      + destruct I as (-> & -> & I). rewrite app_assoc. auto.
      + destruct I as (_ & _ & _ & _ & X). discriminate.
    - destruct par; intros I; try tauto.
      + destruct I as (_ & _ & _ & _ & X). discriminate.
      + destruct I as (_ & ? & X). discriminate.
  Qed.

  Lemma inv_steps s s' : steps next K s s' -> inv s -> inv s'.
  Proof. induction 1; eauto using inv_step. Qed.
  Lemma inv_start c : inv (start c json).
  Proof. split; reflexivity. Qed.
End Safety.

Lemma steps_snoc {C} (next : C -> action C) K s1 s2 s3 :
  steps next K s1 s2 -> step next K s2 s3 -> steps next K s1 s3.
Proof. induction 1; intros; eauto using steps_refl, steps_more. Qed.
Lemma steps_app {C} (next : C -> action C) K s1 s2 s3 :
  steps next K s1 s2 -> steps next K s2 s3 -> steps next K s1 s3.
Proof. induction 1; intros; eauto using steps_refl, steps_more. Qed.

(** ** Children that read first *)
Section Live.
  Context {C : Type} (next : C -> action C) (reading : C -> Prop) (K : nat) (json : str).
  Hypothesis RF : reads_first next reading.
  Hypothesis K1 : 1 <= K.

  Definition inv2 (s : st C) : Prop :=
    match s_child s with
    | inl c =>
        (reading c /\ s_out s = [] /\
           match s_par s with PWrite _ => True | PRead buf _ _ => buf = [] | _ => False end) \/
        (answers next c /\ s_in s = [] /\ s_got s = json /\
           match s_par s with PRead _ _ _ => True | _ => False end)
    | inr _ => s_in s = [] /\ s_got s = json /\
        match s_par s with PRead _ _ _ | PDone _ _ _ => True | _ => False end
    end.

  Lemma reading_not_answers c : reading c -> ~ answers next c.
  Proof. intros R A. destruct (RF c R) as (k & E & _). destruct A; congruence. Qed.

  Lemma inv2_step s s' : inv json s -> step next K s s' -> inv2 s -> inv2 s'.
  Proof.
    intros I H. destruct H; unfold inv2; cbn [s_par s_in s_out s_child s_got s_sent]; intros J.
    - destruct J as [(R & O & _)|(_ & _ & _ & X)]; [left; auto|contradiction].
    - tauto.
    - destruct c; [|tauto]. destruct J as [(R & O & _)|(_ & _ & _ & X)]; [left; auto|contradiction].
    - destruct c; [|tauto]. destruct J as [(R & O & X)|J]; [|right; tauto].
      destruct now; [congruence|discriminate].
    - tauto.
    - destruct J as [(R & O & X)|(A & X & _)].
      + left. destruct (RF c R) as (k' & E & G & _). assert (k' = k) by congruence. subst k'.
        split; [apply G; assumption|]. auto.
      + destruct now; [congruence|discriminate].
    - destruct J as [(R & O & X)|(A & _)].
      + right. destruct (RF c R) as (k' & E & _ & G). assert (k' = k) by congruence. subst k'.
        destruct par; try contradiction; [exfalso; eapply H0; reflexivity|].
        unfold inv in I. cbn in I. destruct I as (-> & _). rewrite app_nil_r. auto.
      + exfalso. destruct A; congruence.
    - destruct J as [(R & O & X)|(A & J)].
      + exfalso. destruct (RF c R) as (k & E & _). congruence.
      + right. inversion A; [congruence|]. assert (c' = c'0) by congruence. subst. auto.
    - destruct J as [(R & O & X)|(A & J1 & J2 & X)].
      + exfalso. destruct (RF c R) as (k & E & _). congruence.
      + destruct par; tauto.
  Qed.

  Lemma inv2_steps s s' : inv json s -> steps next K s s' -> inv2 s -> inv2 s'.
  Proof. intros I H. induction H; [auto|]. intros J. apply IHsteps; [eapply inv_step; eauto|eapply inv2_step; eauto]. Qed.

  Lemma inv2_progress s : inv json s -> inv2 s -> ~ stuck next K s.
  Proof.
    intros I J [NF NS]. destruct s as [par i o [c|status] g w]; unfold inv2 in J; cbn in J.
    - destruct J as [(R & -> & X)|(A & -> & -> & X)].
      + destruct (RF c R) as (k & E & _). destruct par as [rest|buf cap over| |]; try contradiction.
        * destruct i as [|x i].
          { destruct rest as [|y rest].
            - eapply NS. apply s_close.
            - eapply NS. apply (s_write next K [y] rest); [discriminate|cbn; lia]. }
          eapply NS. apply (s_cread next K (PWrite rest) [x] i [] c k); [exact E|discriminate].
        * destruct i as [|x i].
          { eapply NS. eapply s_ceof; [exact E|discriminate]. }
          eapply NS. apply (s_cread next K (PRead buf cap over) [x] i [] c k); [exact E|discriminate].
      + destruct par as [|buf cap over| |]; try contradiction.
        destruct o as [|x o].
        * inversion A; subst.
          { eapply NS. eapply s_cexit. eassumption. }
          { eapply NS. eapply s_cwrite; [eassumption|cbn; lia|discriminate]. }
        * eapply NS. apply (s_read next K buf cap over [x]); [discriminate|cbn; lia].
    - destruct J as (-> & -> & X). destruct par as [|buf cap over|buf over status'|]; try contradiction.
      + destruct o as [|x o].
        * eapply NS. apply s_eof.
        * eapply NS. apply (s_read next K buf cap over [x]); [discriminate|cbn; lia].
      + apply NF. eexists _, _, _. reflexivity.
  Qed.

  Definition back (s' s : st C) : Prop := step next K s s'.

  (** The child has exited. *)
  Lemma acc_exited : forall n s, length (s_out s) <= n -> (exists status, s_child s = inr status) ->
    inv2 s -> inv json s -> Acc back s.
  Proof.
    induction n as [n IH] using (well_founded_induction Wf_nat.lt_wf).
    intros s L (status & E) J I. constructor. intros s' H. unfold back in H.
    pose proof (inv2_step _ _ I H J) as J'. pose proof (inv_step _ _ _ _ _ H I) as I'.
    destruct H; cbn [s_child s_out] in *; try discriminate.
    - unfold inv2 in J. cbn in J. tauto.
    - subst c. unfold inv2 in J. cbn in J. tauto.
    - rewrite app_length in L. destruct now as [|x now]; [congruence|]. cbn [length] in L.
      apply (IH (length o)); auto; [lia|cbn; eauto].
    - constructor. intros s'' H. unfold back in H. inversion H.
  Qed.

  (** The child is answering. *)
  Lemma acc_answers c : answers next c -> forall n s, length (s_out s) <= n -> s_child s = inl c ->
    inv2 s -> inv json s -> Acc back s.
  Proof.
    intros A. induction A as [c status A|c b c' A AA IHA];
      (induction n as [n IH] using (well_founded_induction Wf_nat.lt_wf));
      intros s L E J I; constructor; intros s' H; unfold back in H;
      pose proof (inv2_step _ _ I H J) as J'; pose proof (inv_step _ _ _ _ _ H I) as I';
      assert (NR : ~ reading c) by (intros R; destruct (RF c R) as (k & Ek & _); congruence);
      unfold inv2 in J; rewrite E in J; (destruct J as [(R & _)|(_ & J1 & J2 & J3)]; [contradiction|]);
      destruct H; cbn [s_child s_out s_par s_in] in *; try contradiction; try discriminate;
      try (injection E as ->); subst; try congruence.
    - rewrite app_length in L. destruct now as [|x now]; [congruence|]. cbn [length] in L.
      apply (IH (length o)); auto; lia.
    - eapply acc_exited; [reflexivity|cbn; eauto|exact J'|exact I'].
    - rewrite app_length in L. destruct now as [|x now]; [congruence|]. cbn [length] in L.
      apply (IH (length o)); auto; lia.
    - match goal with H : next c = Write _ ?d |- _ => assert (d = c') by congruence; subst end.
      eapply IHA; [reflexivity|reflexivity|exact J'|exact I'].
  Qed.

  Definition weight (s : st C) : nat :=
    match s_par s with
    | PWrite rest => 2 * length rest + 1 + length (s_in s)
    | _ => length (s_in s)
    end.

  Lemma acc_reading : forall n s c, weight s <= n -> s_child s = inl c -> reading c ->
    inv2 s -> inv json s -> Acc back s.
  Proof.
    induction n as [n IH] using (well_founded_induction Wf_nat.lt_wf).
    intros s c L E R J I. constructor. intros s' H. unfold back in H.
    pose proof (inv2_step _ _ I H J) as J'. pose proof (inv_step _ _ _ _ _ H I) as I'.
    destruct (RF c R) as (k0 & Ek & G1 & G2).
    unfold inv2 in J. rewrite E in J.
    destruct J as [(_ & J1 & J2)|(A & _)]; [|exfalso; eapply reading_not_answers; eauto].
    destruct H; unfold weight in *; cbn [s_child s_out s_par s_in] in *; try contradiction; try discriminate;
      try (injection E as ->); subst; try congruence.
    - rewrite !app_length in L. destruct now as [|x now]; [congruence|]. cbn [length] in L.
      lazymatch goal with |- Acc back ?s => eapply (IH (weight s)) end; [|apply Nat.le_refl|reflexivity|exact R|exact J'|exact I'].
      unfold weight. cbn [s_par s_in]. rewrite app_length. cbn [length]. lia.
    - lazymatch goal with |- Acc back ?s => eapply (IH (weight s)) end; [|apply Nat.le_refl|reflexivity|exact R|exact J'|exact I'].
      unfold weight. cbn [s_par s_in]. cbn [length] in L. lia.
    - destruct now; [congruence|discriminate].
    - assert (k0 = k) by congruence. subst k0. rewrite app_length in L.
      destruct now as [|x now]; [congruence|]. cbn [length] in L.
      lazymatch goal with |- Acc back ?s => eapply (IH (weight s)) end; [|apply Nat.le_refl|reflexivity|apply G1; discriminate|exact J'|exact I'].
      unfold weight. cbn [s_par s_in]. destruct par; lia.
    - assert (k0 = k) by congruence. subst k0.
      eapply acc_answers; [exact G2|reflexivity|reflexivity|exact J'|exact I'].
  Qed.

  Lemma inv2_start c : reading c -> inv2 (start c json).
  Proof. intros R. left. cbn. auto. Qed.

  Lemma live c : reading c ->
    Acc back (start c json) /\
    forall s, steps next K (start c json) s ->
      ~ killed s /\ ~ stuck next K s /\ (finished s -> s_got s = json).
  Proof.
    intros R. split.
    - eapply acc_reading; [reflexivity|reflexivity|exact R|apply inv2_start; exact R|apply inv_start].
    - intros s H. pose proof (inv_steps _ _ _ _ _ H (inv_start json c)) as I.
      pose proof (inv2_steps _ _ (inv_start json c) H (inv2_start c R)) as J.
      split; [|split].
      + intros X. unfold killed in X. unfold inv2 in J. rewrite X in J.
        destruct (s_child s); [destruct J as [(_ & _ & F)|(_ & _ & _ & F)]; exact F|tauto].
      + apply inv2_progress; assumption.
      + intros (b & o & t & X). unfold inv2 in J. rewrite X in J.
        destruct (s_child s); [destruct J as [(_ & _ & F)|(_ & _ & _ & F)]; contradiction|tauto].
  Qed.
End Live.

(** ** Deadlock of [cat] *)
Lemma cat_rounds K : forall n json rest o g w, length o + length json <= K -> 1 <= K ->
  length json = n ->
  steps cat_next K (mkst (PWrite (json ++ rest)) [] o (inl (CatWrite [])) g w)
                   (mkst (PWrite rest) [] (o ++ json) (inl (CatWrite [])) (g ++ json) (w ++ json)).
Proof.
  induction n as [|n IH]; intros json rest o g w L K1 E.
  - destruct json; [|discriminate]. rewrite !app_nil_r. apply steps_refl.
  - destruct json as [|x json]; [discriminate|]. cbn [length] in *.
    eapply steps_more; [apply (s_write cat_next K [x] (json ++ rest)); [discriminate|cbn; lia]|].
    cbn [app].
    eapply steps_more; [apply (s_cread cat_next K _ [x] [] o (CatWrite [])
        (fun chunk => match chunk with [] => CatEnd | _ => CatWrite chunk end)); [reflexivity|discriminate]|].
    eapply steps_more; [apply (s_cwrite cat_next K _ [] o (CatWrite [x]) x (CatWrite [])); [reflexivity|lia|discriminate]|].
    replace (o ++ x :: json) with ((o ++ [x]) ++ json) by (rewrite <- app_assoc; reflexivity).
    replace (g ++ x :: json) with ((g ++ [x]) ++ json) by (rewrite <- app_assoc; reflexivity).
    replace (w ++ x :: json) with ((w ++ [x]) ++ json) by (rewrite <- app_assoc; reflexivity).
    apply IH; [rewrite app_length; cbn; lia|assumption|lia].
Qed.

Lemma cat_deadlock K json : 1 <= K -> 2 * K + 2 <= length json ->
  exists s, steps cat_next K (start (CatWrite []) json) s /\ stuck cat_next K s.
Proof.
  intros K1 L.
  assert (exists a y b z r, json = a ++ y :: b ++ z :: r /\ length a = K /\ length b = K)
    as (a & y & b & z & r & -> & La & Lb).
  { destruct (skipn K json) as [|y t] eqn:E1.
    { apply (f_equal (@length ascii)) in E1. rewrite skipn_length in E1. cbn in E1. lia. }
    assert (L1 : length t = length json - K - 1)
      by (apply (f_equal (@length ascii)) in E1; rewrite skipn_length in E1; cbn in E1; lia).
    destruct (skipn K t) as [|z r] eqn:E2.
    { apply (f_equal (@length ascii)) in E2. rewrite skipn_length in E2. cbn in E2. lia. }
    exists (firstn K json), y, (firstn K t), z, r.
    rewrite <- E2, (firstn_skipn K t), <- E1, firstn_skipn, !firstn_length. repeat split; lia. }
  exists (mkst (PWrite (z :: r)) b a (inl (CatWrite [y])) (a ++ [y]) a). split.
  - eapply steps_app.
    { apply (cat_rounds K K a (y :: b ++ z :: r) [] [] []); cbn; lia. }
    cbn [app].
    eapply steps_more; [apply (s_write cat_next K [y] (b ++ z :: r)); [discriminate|cbn; lia]|]. cbn [app].
    eapply steps_more; [apply (s_cread cat_next K _ [y] [] a (CatWrite [])
        (fun chunk => match chunk with [] => CatEnd | _ => CatWrite chunk end)); [reflexivity|discriminate]|].
    eapply steps_more; [apply (s_write cat_next K b (z :: r)); [destruct b; cbn in Lb; [lia|discriminate]|cbn; lia]|].
    apply steps_refl.
  - split.
    + intros (buf & over & status & E). discriminate.
    + intros s' H. inversion H; subst; try discriminate.
      * destruct now as [|x now]; [congruence|]. cbn [length] in *. lia.
      * match goal with E : cat_next _ = Write _ _ |- _ => cbn in E; injection E as <- <- end. lia.
Qed.

Lemma early_exit K json : json <> [] ->
  exists s, steps true_next K (start tt json) s /\ killed s.
Proof.
  intros N. eexists. split.
  - eapply steps_more; [apply s_cexit; reflexivity|].
    eapply steps_more; [apply s_sigpipe; exact N|]. apply steps_refl.
  - reflexivity.
Qed.

(** [slurp] reads first. *)
Lemma slurp_reads_first f : reads_first (slurp_next f) (fun c => exists s, c = Slurping s).
Proof.
  intros c (s & ->). eexists. split; [reflexivity|]. split.
  - intros [|x chunk] N; [congruence|]. eauto.
  - generalize (f s). intros l. induction l as [|b l IH].
    + eapply a_exit. reflexivity.
    + eapply a_write; [reflexivity|exact IH].
Qed.

(** ** The chain of filters *)
Section Filters.
  Context {D : Type} (empty : D -> bool) (run : str -> D -> option D).
  Notation chain := (run_filters empty run).

  Lemma chain_app strict a b cur :
    chain strict (a ++ b) cur = match chain strict a cur with Some d => chain strict b d | None => None end.
  Proof.
    revert cur. induction a as [|cmd a IH]; intros cur; [reflexivity|]. cbn [app run_filters].
    destruct cmd as [[|c cs]|]; auto. destruct (run (c :: cs) cur) as [new|].
    - destruct (empty new && negb (empty cur)); apply IH.
    - destruct strict; [reflexivity|apply IH].
  Qed.
  Lemma chain_some cmds cur : exists d, chain false cmds cur = Some d.
  Proof.
    revert cur. induction cmds as [|cmd a IH]; intros cur; [cbn; eauto|]. cbn [run_filters].
    destruct cmd as [[|c cs]|]; auto. destruct (run (c :: cs) cur) as [new|]; [|apply IH].
    destruct (empty new && negb (empty cur)); apply IH.
  Qed.
  Lemma chain_empty strict cmds cur d : chain strict cmds cur = Some d -> empty cur = false -> empty d = false.
  Proof.
    revert cur. induction cmds as [|cmd a IH]; intros cur; cbn [run_filters]; [intros [= ->]; auto|].
    destruct cmd as [[|c cs]|]; [apply IH| |apply IH]. destruct (run (c :: cs) cur) as [new|].
    - intros H E. rewrite E in H. cbn [negb] in H. rewrite andb_true_r in H.
      destruct (empty new) eqn:En; eauto.
    - destruct strict; [discriminate|apply IH].
  Qed.
  (** A chain step by step. *)
  Lemma chain_strict cmds cur d : chain true cmds cur = Some d ->
    forall a cmd b, cmds = a ++ Some cmd :: b -> cmd <> [] ->
    exists mid new, chain true a cur = Some mid /\ run cmd mid = Some new /\
      chain true b (if empty new && negb (empty mid) then mid else new) = Some d.
  Proof.
    intros H a cmd b -> N. rewrite chain_app in H. destruct (chain true a cur) as [mid|]; [|discriminate].
    cbn [run_filters] in H. destruct cmd as [|c cs]; [congruence|].
    destruct (run (c :: cs) mid) as [new|] eqn:E; [|discriminate].
    exists mid, new. split; [reflexivity|]. split; [exact E|]. destruct (empty new && negb (empty mid)); exact H.
  Qed.
  Lemma chain_none cmds cur : chain true cmds cur = None ->
    exists a cmd b mid, cmds = a ++ Some cmd :: b /\ cmd <> [] /\
      chain true a cur = Some mid /\ run cmd mid = None.
  Proof.
    revert cur. induction cmds as [|cmd a IH]; intros cur; cbn [run_filters]; [discriminate|].
    intros H.
    assert (G : forall cur', chain true [cmd] cur = Some cur' -> chain true a cur' = None ->
      exists a0 cmd0 b mid, cmd :: a = a0 ++ Some cmd0 :: b /\ cmd0 <> [] /\
        chain true a0 cur = Some mid /\ run cmd0 mid = None).
    { intros cur' H1 H2. destruct (IH cur' H2) as (a0 & c0 & b & mid & -> & N & E1 & E2).
      exists (cmd :: a0), c0, b, mid. repeat split; auto.
      change (cmd :: a0) with ([cmd] ++ a0). rewrite chain_app, H1. exact E1. }
    destruct cmd as [[|c cs]|].
    - apply (G cur); auto.
    - cbn [run_filters] in G. destruct (run (c :: cs) cur) as [new|] eqn:E.
      + destruct (empty new && negb (empty cur)) eqn:X; eapply G; try reflexivity; exact H.
      + exists [], (c :: cs), a, cur. repeat split; auto. discriminate.
    - apply (G cur); auto.
  Qed.
  Lemma chain_skip a cmd b cur mid : chain false a cur = Some mid ->
    (forall c, cmd = Some c -> c <> [] -> run c mid = None) ->
    chain false (a ++ cmd :: b) cur = chain false (a ++ b) cur.
  Proof.
    intros H N. rewrite !chain_app, H. cbn [run_filters]. destruct cmd as [[|c cs]|]; try reflexivity.
    rewrite (N (c :: cs)) by (reflexivity || discriminate). reflexivity.
  Qed.
End Filters.
