From Verif Require Import Base BaseL M_Critic S_Critic.

Definition kind (t : critic_type) : mark :=
  match t with
  | CAdd => Addition | CDel => Deletion | CSub => Substitution
  | CHighlight => Highlight | CComment => Comment
  end.

Lemma app_inj_len {A} (a b c d : list A) :
  length a = length c -> a ++ b = c ++ d -> a = c /\ b = d.
Proof.
  revert c; induction a as [|x a IH]; intros [|y c] L H; simpl in *; try discriminate; auto.
  injection H as -> H. injection L as L. destruct (IH c L H) as [-> ->]. auto.
Qed.

Lemma critic_open_spec input t close :
  ceq (at_ input 0) "{" = true -> critic_open input = Some (t, close) ->
  close = closing (kind t) /\ 3 <= length input /\ firstn 3 input = opening (kind t).
Proof.
  intros H0 H. unfold critic_open, at_ in *.
  destruct input as [|c0 [|c1 [|c2 r]]]; cbn in H0, H; try discriminate.
  - repeat (rewrite ?andb_false_r in H); 
    destruct (ceq c1 "+"); cbn in H; try discriminate;
    destruct (ceq c1 "-"); cbn in H; try discriminate;
    destruct (ceq c1 "~"); cbn in H; try discriminate;
    destruct (ceq c1 "="); cbn in H; try discriminate;
    destruct (ceq c1 ">"); cbn in H; discriminate.
  - apply ceq_eq in H0; subst c0.
    split; [|split; [simpl; lia|]].
    + repeat match type of H with
        | (if ?b then _ else _) = _ => destruct b; [injection H as <- <-; reflexivity|]
        end. discriminate.
    + cbn [firstn].
      repeat match type of H with
        | (if ?b then _ else _) = _ =>
            let E := fresh "E" in destruct b eqn:E;
            [injection H as <- <-; apply andb_prop in E as [Ex Ey];
             apply ceq_eq in Ex, Ey; subst; reflexivity|]
        end. discriminate.
Qed.

Lemma critic_open_none input m r :
  critic_open input = None -> input <> opening m ++ r.
Proof. intros H E; subst. destruct m; discriminate H. Qed.

Lemma opening_len m : length (opening m) = 3.
Proof. destruct m; reflexivity. Qed.
Lemma closing_len m : length (closing m) = 3.
Proof. destruct m; reflexivity. Qed.

(** Text between the marks as the specification sees it. *)
Definition hit_ok (p : str) (h : critic_hit) (body rest : str) : Prop :=
  mark_at p (kind (h_type h)) body rest /\
  skipn (h_consumed h) p = rest /\
  h_consumed h = 6 + length body /\
  match h_type h with
  | CSub => exists o, splits body o (h_content h) /\
                      (h_old h = Some o \/ (h_old h = None /\ o = []))
  | _ => h_content h = body
  end.

Lemma firstn_len_app {A} (a b : list A) : firstn (length a) (a ++ b) = a.
Proof. rewrite firstn_app, Nat.sub_diag, firstn_all. apply app_nil_r. Qed.
Lemma skipn_len_app {A} (a b : list A) : skipn (length a) (a ++ b) = b.
Proof. rewrite skipn_app, Nat.sub_diag, skipn_all. reflexivity. Qed.

Lemma scan_sound p h :
  scan_critic p = Some h -> exists body rest, hit_ok p h body rest.
Proof.
  unfold scan_critic. destruct (length p <? 6); [discriminate|].
  destruct (ceq (at_ p 0) "{") eqn:E0; cbn [negb]; [|discriminate].
  destruct (critic_open p) as [[t close]|] eqn:Eo; [|discriminate].
  destruct (critic_open_spec _ _ _ E0 Eo) as (-> & L3 & F3).
  destruct (strstr (closing (kind t)) (skipn 3 p)) as [closer|] eqn:Es; [|discriminate].
  apply strstr_some in Es as (body & rest & Eb & Lb & Fb).
  assert (Hp : p = opening (kind t) ++ body ++ closing (kind t) ++ rest).
  { rewrite <- F3, <- Eb. symmetry; apply firstn_skipn. }
  assert (M : mark_at p (kind t) body rest).
  { split; [assumption|]. intros b r Ebr. apply (Fb b r). rewrite Eb. exact Ebr. }
  assert (Sk : skipn (closer + 3 + 3) p = rest).
  { rewrite Hp. replace (closer + 3 + 3) with (length (opening (kind t) ++ body ++ closing (kind t)))
      by (rewrite !app_length, opening_len, closing_len; lia).
    replace (opening (kind t) ++ body ++ closing (kind t) ++ rest)
      with ((opening (kind t) ++ body ++ closing (kind t)) ++ rest)
      by (rewrite <- !app_assoc; reflexivity).
    apply skipn_len_app. }
  assert (Fw : firstn closer (skipn 3 p) = body)
    by (rewrite Eb, <- Lb; apply firstn_len_app).
  intros H; apply Some_inj in H; subst h.
  assert (W : hit_ok p (Hit t (firstn closer (skipn 3 p)) None (closer + 3 + 3)) body rest
              \/ t = CSub).
  { destruct t; [left|left|right; reflexivity|left|left];
      (split; [assumption|]); (split; [assumption|]); (split; [simpl; lia|]); assumption. }
  exists body, rest. destruct t; try (destruct W as [W|W]; [exact W|discriminate]).
  clear W.
  assert (HN : (forall o n, body <> o ++ B "~>" ++ n) ->
     hit_ok p (Hit CSub (firstn closer (skipn 3 p)) None (closer + 3 + 3)) body rest).
  { intros N. repeat split; try assumption; try apply M; [simpl; lia|].
    exists []. split; [|right; auto]. right. rewrite Fw. auto. }
  destruct (strstr (B "~>") (skipn 3 p)) as [sep|] eqn:Ep.
  - apply strstr_some in Ep as (o & q & Eo' & Lo & Fo).
    destruct (Nat.ltb_spec sep closer) as [Lt|Ge].
    + (* the separator lies inside the body *)
      assert (exists n, body = o ++ B "~>" ++ n /\ q = n ++ closing Substitution ++ rest) as (n & En & Eq).
      { rewrite Eo' in Eb. cbn [kind] in Eb.
        assert (Lt2 : length o + 2 <= length body).
        { (* closer = sep + 1 would put '>' on top of '~' *)
          destruct (Nat.eq_dec (length body) (length o + 1)) as [E1|E1]; [|lia].
          exfalso.
          assert (nth (length o + 1) (o ++ B "~>" ++ q) NUL
                  = nth (length o + 1) (body ++ B "~~}" ++ rest) NUL) as X by (rewrite Eb; reflexivity).
          rewrite (app_nth2 o) in X by lia. rewrite (app_nth2 body) in X by lia.
          replace (length o + 1 - length o) with 1 in X by lia.
          replace (length o + 1 - length body) with 0 in X by lia.
          discriminate. }
        exists (skipn (length o + 2) body).
        assert (Es : body = firstn (length o + 2) body ++ skipn (length o + 2) body)
          by (symmetry; apply firstn_skipn).
        rewrite Es in Eb. rewrite <- app_assoc in Eb.
        rewrite (app_assoc o) in Eb.
        apply app_inj_len in Eb as [E1 E2].
        2:{ rewrite app_length, firstn_length. change (length (B "~>")) with 2. lia. }
        split; [|exact E2]. rewrite Es at 1. rewrite <- E1, <- app_assoc. reflexivity. }
      repeat split; try assumption; try apply M; [simpl; lia|].
      cbn [h_type h_content h_old]. exists o. split.
      * left. rewrite Eo'.
        assert (skipn (sep + 2) (o ++ B "~>" ++ q) = q) as ->.
        { rewrite app_assoc. replace (sep + 2) with (length (o ++ B "~>"))
            by (rewrite app_length; cbn; lia). apply skipn_len_app. }
        assert (firstn (closer - (sep + 2)) q = n) as ->.
        { rewrite Eq. replace (closer - (sep + 2)) with (length n).
          - apply firstn_len_app.
          - rewrite <- Lb, En, <- Lo. rewrite !app_length. cbn. lia. }
        split; [exact En|].
        intros o' n' E'. apply (Fo o' (n' ++ closing Substitution ++ rest)).
        rewrite Eb, E', <- !app_assoc. reflexivity.
      * left. rewrite Eo', <- Lo. rewrite firstn_len_app. reflexivity.
    + apply HN. intros o' n' E'.
      assert (length o <= length o').
      { apply (Fo o' (n' ++ closing Substitution ++ rest)).
        rewrite Eb, E', <- !app_assoc. reflexivity. }
      assert (length body = length o' + 2 + length n')
        by (rewrite E', !app_length; cbn; lia).
      lia.
  - apply HN. intros o' n' E'.
    apply (strstr_none _ _ Ep o' (n' ++ closing Substitution ++ rest)).
    rewrite Eb, E', <- !app_assoc. reflexivity.
Qed.

Lemma scan_complete p m body rest :
  mark_at p m body rest -> scan_critic p <> None.
Proof.
  intros [Hp F]. unfold scan_critic.
  assert (L : length p = 6 + length body + length rest)
    by (rewrite Hp, !app_length, opening_len, closing_len; lia).
  destruct (Nat.ltb_spec (length p) 6); [lia|].
  assert (ceq (at_ p 0) "{" = true) as -> by (rewrite Hp; destruct m; reflexivity).
  cbn [negb].
  assert (exists t, critic_open p = Some (t, closing m)) as [t ->].
  { rewrite Hp. destruct m; eexists; reflexivity. }
  assert (skipn 3 p = body ++ closing m ++ rest) as ->
    by (rewrite Hp; destruct m; reflexivity).
  destruct (strstr _ (body ++ closing m ++ rest)) eqn:E.
  - discriminate.
  - exfalso. exact (strstr_none _ _ E body rest eq_refl).
Qed.

Lemma scan_none p : scan_critic p = None <-> forall m b r, ~ mark_at p m b r.
Proof.
  split.
  - intros H m b r M. exact (scan_complete _ _ _ _ M H).
  - intros H. destruct (scan_critic p) as [h|] eqn:E; [|reflexivity].
    destruct (scan_sound _ _ E) as (b & r & M & _). destruct (H _ _ _ M).
Qed.

Lemma scan_brace c p : ceq c "{" = false -> scan_critic (c :: p) = None.
Proof.
  intros H. unfold scan_critic. destruct (_ <? 6); [reflexivity|].
  cbn [at_ nth]. rewrite H. reflexivity.
Qed.

Lemma if_brace c p :
  (if ceq c "{" then scan_critic (c :: p) else None) = scan_critic (c :: p).
Proof. destruct (ceq c "{") eqn:E; [reflexivity|]. rewrite scan_brace; auto. Qed.

Lemma reads_total s : exists segs, reads s segs.
Proof.
  induction s as [s IH] using (well_founded_induction (Wf_nat.well_founded_ltof _ (@length ascii))).
  destruct s as [|c s]; [exists []; constructor|].
  destruct (scan_critic (c :: s)) as [h|] eqn:E.
  - destruct (scan_sound _ _ E) as (b & r & M & _ & _ & _).
    destruct (IH r) as [segs R].
    { unfold Wf_nat.ltof. destruct M as [-> _]. rewrite !app_length, opening_len. lia. }
    eexists. eapply reads_mark; eauto.
  - pose proof (proj1 (scan_none _) E) as E1. destruct (IH s) as [segs R]; [unfold Wf_nat.ltof; simpl; lia|].
    eexists. apply reads_plain; eauto.
Qed.

Lemma splits_fun b o n o' n' : splits b o n -> splits b o' n' -> o = o' /\ n = n'.
Proof.
  intros [[E F]|(N & -> & ->)] [[E' F']|(N' & -> & ->)].
  - assert (length o = length o') as L
      by (apply Nat.le_antisymm; [apply (F _ _ E')|apply (F' _ _ E)]).
    rewrite E in E'. apply app_inj_len in E' as [-> E']; [|assumption].
    apply app_inv_head in E'. auto.
  - destruct (N' _ _ E).
  - destruct (N _ _ E').
  - auto.
Qed.

Lemma splits_len b o n : splits b o n -> length n <= length b /\ length o <= length b.
Proof.
  intros [[E F]|(N & -> & ->)].
  - rewrite E, !app_length. lia.
  - simpl; lia.
Qed.

(** The two relations, selected by the mode. *)
Definition piece (mode : critic_mode) : segment -> str -> Prop :=
  match mode with MAccept => accepted | _ => rejected end.

Lemma hit_piece p h body rest mode :
  mode <> MMarkup -> hit_ok p h body rest ->
  piece mode (Marked (kind (h_type h)) body) (critic_to_html h mode) /\
  length (critic_to_html h mode) <= length body.
Proof.
  intros HM (M & _ & _ & H). unfold critic_to_html.
  destruct mode; [| |congruence]; cbn [piece]; destruct (h_type h); cbn [kind];
    try (rewrite H; split; [constructor|lia]);
    try (split; [constructor|simpl; lia]);
    destruct H as (o & Hs & Ho); pose proof (splits_len _ _ _ Hs) as L.
  - split; [econstructor; eassumption|lia].
  - destruct Ho as [->|[-> ->]].
    + assert ((if 0 <? length o then o else []) = o) as -> by (destruct o; reflexivity).
      split; [econstructor; eassumption|lia].
    + split; [econstructor; eassumption|simpl; lia].
Qed.

Lemma critic_loop_ok mode (text : str) : mode <> MMarkup ->
  forall fuel w p,
  w_ok w -> length p < fuel -> length p <= length text ->
  w_cap w = length text * 2 ->
  length (w_out w) + length p <= length text ->
  exists w', critic_loop fuel mode w p = Some w' /\ w_ok w' /\
    w_cap w' = w_cap w /\
    length (w_out w') <= length text /\
    exists segs out, reads p segs /\ result_of (piece mode) segs out /\
      w_out w' = w_out w ++ out.
Proof.
  intros HM. induction fuel as [|fuel IH]; intros w p OK Hf Hp Hc Ho; [lia|].
  cbn [critic_loop]. destruct p as [|c p1].
  { exists w. split; [reflexivity|]. split; [assumption|]. split; [reflexivity|].
    simpl in Ho. split; [lia|]. exists [], []. split; [constructor|]. split; [|symmetry; apply app_nil_r].
    exists []. split; constructor. }
  rewrite if_brace. cbn [length] in *.
  destruct (scan_critic (c :: p1)) as [h|] eqn:Es.
  - destruct (scan_sound _ _ Es) as (body & rest & HH).
    destruct (hit_piece _ _ _ _ mode HM HH) as [HP HL].
    destruct HH as (M & Sk & Co & _). rewrite Sk.
    assert (Lp : S (length p1) = 6 + length body + length rest).
    { change (S (length p1)) with (length (c :: p1)). destruct M as [-> _].
      rewrite !app_length, opening_len, closing_len. lia. }
    set (piece_out := critic_to_html h mode) in *.
    assert (Hfit : length piece_out < w_rem w) by (destruct OK; lia).
    destruct (IH (w_puts_lt piece_out w) rest) as (w' & E & OK' & C' & L' & segs & out & R & P & O).
    + apply w_puts_lt_ok, OK.
    + lia.
    + lia.
    + rewrite w_puts_lt_cap. assumption.
    + rewrite w_puts_lt_out, app_length by assumption. lia.
    + exists w'. split; [exact E|]. split; [exact OK'|].
      split; [rewrite C', w_puts_lt_cap; reflexivity|]. split; [exact L'|].
      exists (Marked (kind (h_type h)) body :: segs), (piece_out ++ out).
      split; [econstructor; eassumption|]. split.
      * destruct P as (ps & F & ->). exists (piece_out :: ps).
        split; [constructor; assumption|reflexivity].
      * rewrite O, w_puts_lt_out by assumption. rewrite app_assoc. reflexivity.
  - assert (Hr : 0 < w_rem w) by (destruct OK; lia).
    destruct (IH (w_put c w) p1) as (w' & E & OK' & C' & L' & segs & out & R & P & O).
    + apply w_put_ok, OK.
    + lia.
    + lia.
    + rewrite w_put_cap; assumption.
    + rewrite w_put_out, app_length by assumption. simpl; lia.
    + exists w'. split; [exact E|]. split; [exact OK'|].
      split; [rewrite C', w_put_cap; reflexivity|]. split; [exact L'|].
      exists (Plain c :: segs), ([c] ++ out).
      split; [|split].
      * apply reads_plain; [|assumption]. apply (proj1 (scan_none _)); assumption.
      * destruct P as (ps & F & ->). exists ([c] :: ps).
        split; [|reflexivity]. constructor; [|assumption].
        destruct mode; constructor.
      * rewrite O, w_put_out by assumption. rewrite <- app_assoc. reflexivity.
Qed.

(** The readings of a text are unique. *)
Lemma mark_at_fun s m b r m' b' r' :
  mark_at s m b r -> mark_at s m' b' r' -> m = m' /\ b = b' /\ r = r'.
Proof.
  intros [E F] [E' F'].
  assert (m = m') as <-.
  { rewrite E in E'. destruct m, m'; try reflexivity; discriminate. }
  split; [reflexivity|]. rewrite E in E'. apply app_inv_head in E'.
  assert (length b = length b') as L
    by (apply Nat.le_antisymm; [apply (F _ _ E')|apply (F' _ _ (eq_sym E'))]).
  apply app_inj_len in E' as [-> E']; [|assumption].
  apply app_inv_head in E'. auto.
Qed.

Lemma reads_fun s segs segs' : reads s segs -> reads s segs' -> segs = segs'.
Proof.
  intros R. revert segs'. induction R as [|s m b r segs M R IH|c s segs N R IH]; intros segs' R'.
  - inversion R' as [|s0 m b r segs0 M| ]; [reflexivity|]. destruct M as [M _].
    destruct m; discriminate.
  - inversion R' as [|s0 m' b' r' segs0 M' R''|c s' segs0 N' R'']; subst.
    + destruct M as [M _]. destruct m; discriminate.
    + destruct (mark_at_fun _ _ _ _ _ _ _ M M') as (-> & -> & ->).
      f_equal. apply IH, R''.
    + destruct (N' _ _ _ M).
  - inversion R' as [|s0 m' b' r' segs0 M' R''|c0 s' segs0 N' R'']; subst.
    + destruct (N _ _ _ M').
    + f_equal. apply IH, R''.
Qed.

Lemma piece_fun mode g a b : piece mode g a -> piece mode g b -> a = b.
Proof.
  destruct mode; cbn [piece]; intros H1 H2; inversion H1; subst; inversion H2; subst;
    try reflexivity;
    match goal with A : splits ?b _ _, B : splits ?b _ _ |- _ =>
      destruct (splits_fun _ _ _ _ _ A B); congruence end.
Qed.

Lemma result_fun mode segs a b :
  result_of (piece mode) segs a -> result_of (piece mode) segs b -> a = b.
Proof.
  intros (p & F & ->) (q & G & ->). f_equal. revert q G.
  induction F as [|g x segs p H F IH]; intros q G; inversion G; subst; [reflexivity|].
  f_equal; [eapply piece_fun; eassumption|auto].
Qed.

Lemma process_critic_ok mode text : mode <> MMarkup -> text <> [] ->
  exists w segs, process_critic mode text = Some w /\
    reads text segs /\ result_of (piece mode) segs (w_out w) /\ w_oob w = false.
Proof.
  intros HM HN. unfold process_critic.
  destruct (critic_loop_ok mode text HM (S (length text))
              (w_new (length text * 2) (length text * 2)) text)
    as (w' & E & OK & C & L & segs & out & R & P & O); try (simpl; lia).
  { apply w_ok_new. }
  rewrite E. cbn [option_map]. exists (w_term w'), segs. split; [reflexivity|].
  split; [assumption|]. simpl in O, C. split; [unfold w_term; cbn [w_out]; rewrite O; assumption|].
  apply w_term_safe; [assumption|]. destruct OK as [OK _].
  assert (0 < length text) by (destruct text; [congruence|simpl; lia]). lia.
Qed.

Lemma accept_ok text : text <> [] ->
  exists w segs, process_critic MAccept text = Some w /\
    reads text segs /\ result_of accepted segs (w_out w).
Proof.
  intros H. destruct (process_critic_ok MAccept text) as (w & segs & A & B & C & _);
    [discriminate|assumption|]. exists w, segs. auto.
Qed.

Lemma reject_ok text : text <> [] ->
  exists w segs, process_critic MReject text = Some w /\
    reads text segs /\ result_of rejected segs (w_out w).
Proof.
  intros H. destruct (process_critic_ok MReject text) as (w & segs & A & B & C & _);
    [discriminate|assumption|]. exists w, segs. auto.
Qed.

Lemma critic_unique segs a b : 
  (result_of accepted segs a -> result_of accepted segs b -> a = b) /\
  (result_of rejected segs a -> result_of rejected segs b -> a = b).
Proof. split; [apply (result_fun MAccept)|apply (result_fun MReject)]. Qed.

Lemma critic_safe mode text : mode = MAccept \/ mode = MReject -> text <> [] ->
  exists w, process_critic mode text = Some w /\ w_oob w = false.
Proof.
  intros H N. destruct (process_critic_ok mode text) as (w & segs & A & _ & _ & D);
    [destruct H; subst; discriminate|assumption|]. exists w. auto.
Qed.

Lemma critic_safe_refuted : exists w, process_critic MAccept [] = Some w /\ w_oob w = true.
Proof. eexists. split; vm_compute; reflexivity. Qed.

Lemma critic_markup_refuted :
  exists text w, process_critic MMarkup text = Some w /\
    In "x"%char text /\ ~ In "x"%char (w_out w).
Proof.
  exists (B "{++x++}"). eexists. split; [vm_compute; reflexivity|].
  split; [right; right; right; left; reflexivity|].
  intros H; vm_compute in H. exact H.
Qed.

(** Markup mode. *)
Lemma hit_shown p h body rest :
  hit_ok p h body rest ->
  shown (Marked (kind (h_type h)) body) (critic_to_html h MMarkup).
Proof.
  intros (M & _ & _ & H). unfold critic_to_html.
  destruct (h_type h); cbn [kind];
    try (rewrite H; constructor).
  destruct H as (o & Hs & Ho).
  destruct Ho as [->|[-> ->]].
  - destruct o as [|o0 o]; cbn [length Nat.ltb Nat.leb].
    + apply sh_sub0; assumption.
    + apply sh_sub; [assumption|discriminate].
  - apply sh_sub0; assumption.
Qed.

Lemma critic_loop_shown : forall fuel w p,
  w_ok w -> length p < fuel ->
  exists segs out, reads p segs /\ result_of shown segs out /\
  (length out < w_rem w ->
   exists w', critic_loop fuel MMarkup w p = Some w' /\ w_ok w' /\
     w_cap w' = w_cap w /\ w_out w' = w_out w ++ out).
Proof.
  induction fuel as [|fuel IH]; intros w p OK Hf; [lia|].
  cbn [critic_loop]. destruct p as [|c p1].
  { exists [], []. split; [constructor|]. split; [exists []; split; constructor|].
    intros _. exists w. rewrite app_nil_r. auto. }
  rewrite if_brace. cbn [length] in *.
  destruct (scan_critic (c :: p1)) as [h|] eqn:Es.
  - destruct (scan_sound _ _ Es) as (body & rest & HH).
    pose proof (hit_shown _ _ _ _ HH) as HP.
    destruct HH as (M & Sk & Co & _). rewrite Sk.
    assert (Lp : S (length p1) = 6 + length body + length rest).
    { change (S (length p1)) with (length (c :: p1)). destruct M as [-> _].
      rewrite !app_length, opening_len, closing_len. lia. }
    set (po := critic_to_html h MMarkup) in *.
    destruct (IH (w_puts_lt po w) rest) as (segs & out & R & P & K);
      [apply w_puts_lt_ok, OK|lia|].
    exists (Marked (kind (h_type h)) body :: segs), (po ++ out).
    split; [econstructor; eassumption|]. split.
    + destruct P as (ps & F & ->). exists (po :: ps).
      split; [constructor; assumption|reflexivity].
    + rewrite app_length. intros Hfit.
      destruct K as (w' & E & OK' & C' & O').
      { unfold w_puts_lt. destruct (Nat.ltb_spec (length po) (w_rem w)); simpl; lia. }
      exists w'. split; [exact E|]. split; [exact OK'|].
      split; [rewrite C', w_puts_lt_cap; reflexivity|].
      rewrite O', w_puts_lt_out by lia. rewrite app_assoc. reflexivity.
  - destruct (IH (w_put c w) p1) as (segs & out & R & P & K);
      [apply w_put_ok, OK|lia|].
    exists (Plain c :: segs), ([c] ++ out).
    split; [apply reads_plain; [apply (proj1 (scan_none _)); assumption|assumption]|].
    split.
    + destruct P as (ps & F & ->). exists ([c] :: ps).
      split; [constructor; [constructor|assumption]|reflexivity].
    + rewrite app_length. intros Hfit. cbn [length] in Hfit.
      destruct K as (w' & E & OK' & C' & O').
      { unfold w_put. destruct (Nat.ltb_spec 0 (w_rem w)); simpl; lia. }
      exists w'. split; [exact E|]. split; [exact OK'|].
      split; [rewrite C', w_put_cap; reflexivity|].
      rewrite O', w_put_out by lia. rewrite <- app_assoc. reflexivity.
Qed.

Lemma critic_markup_ok text :
  exists segs out, reads text segs /\ result_of shown segs out /\
  (length out < 2 * length text ->
   exists w, process_critic MMarkup text = Some w /\ w_out w = out /\ w_oob w = false).
Proof.
  destruct (critic_loop_shown (S (length text)) (w_new (length text * 2) (length text * 2)) text)
    as (segs & out & R & P & K); [apply w_ok_new|lia|].
  exists segs, out. split; [assumption|]. split; [assumption|]. intros L.
  destruct K as (w & E & OK & C & O); [simpl; lia|].
  exists (w_term w). unfold process_critic. rewrite E. split; [reflexivity|].
  split; [exact O|]. apply w_term_safe; [assumption|]. simpl in O, C.
  destruct OK as [OK _]. rewrite O, C in OK. lia.
Qed.
