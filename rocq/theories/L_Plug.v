(** Proofs about plugins. *)
From Verif Require Import Base BaseL M_Trans L_Trans L_Vars M_Plug S_Plug.

(** ** Order *)
Lemma strcmp_lt a : forall b, strcmp a b = Lt <-> lex a b.
Proof.
  induction a as [|x a IH]; intros [|y b]; cbn [strcmp].
  - split; [discriminate|inversion 1].
  - split; [constructor|reflexivity].
  - split; [discriminate|inversion 1].
  - destruct (N.compare_spec (code x) (code y)) as [E|E|E].
    + apply code_inj in E. subst y. rewrite IH. split; [apply lex_next|].
      inversion 1; subst; [lia|assumption].
    + split; [intros _; apply lex_byte, E|reflexivity].
    + split; [discriminate|]. inversion 1; subst; lia.
Qed.

Lemma strcmp_eq a : forall b, strcmp a b = Eq <-> a = b.
Proof.
  induction a as [|x a IH]; intros [|y b]; cbn [strcmp]; try (split; [discriminate|congruence]).
  - tauto.
  - destruct (N.compare_spec (code x) (code y)) as [E|E|E].
    + apply code_inj in E. subst y. rewrite IH. split; congruence.
    + split; [discriminate|]. intros [= -> _]. lia.
    + split; [discriminate|]. intros [= -> _]. lia.
Qed.

Lemma strcmp_gt a : forall b, strcmp a b = Gt <-> lex b a.
Proof.
  induction a as [|x a IH]; intros [|y b]; cbn [strcmp].
  - split; [discriminate|inversion 1].
  - split; [discriminate|inversion 1].
  - split; [constructor|reflexivity].
  - destruct (N.compare_spec (code x) (code y)) as [E|E|E].
    + apply code_inj in E. subst y. rewrite IH. split; [apply lex_next|].
      inversion 1; subst; [lia|assumption].
    + split; [discriminate|]. inversion 1; subst; lia.
    + split; [intros _; apply lex_byte, E|reflexivity].
Qed.

Lemma lex_irrefl a : ~ lex a a.
Proof. intros H. apply strcmp_lt in H. rewrite (proj2 (strcmp_eq a a) eq_refl) in H. discriminate. Qed.

Lemma lex_trans a b : lex a b -> forall c, lex b c -> lex a c.
Proof.
  induction 1 as [c s|c d s t H|c s t H IH]; intros u K; inversion K; subst; try (constructor; fail).
  - apply lex_byte. lia.
  - apply lex_byte. assumption.
  - apply lex_byte. assumption.
  - apply lex_next. apply IH. assumption.
Qed.

Lemma before_trans p q r : before p q -> before q r -> before p r.
Proof.
  unfold before. intros [H|[H1 H2]] [K|[K1 K2]]; [left; lia|left; lia|left; lia|right].
  split; [congruence|eapply lex_trans; eassumption].
Qed.
Lemma before_irrefl p : ~ before p p.
Proof. intros [H|[_ H]]; [lia|exact (lex_irrefl _ H)]. Qed.

Lemma ids_decide p q : p_id p <> p_id q -> before p q \/ before q p.
Proof.
  intros N. unfold before. destruct (Z.lt_trichotomy (p_prio p) (p_prio q)) as [H|[H|H]]; auto.
  destruct (strcmp (p_id p) (p_id q)) eqn:E.
  - apply strcmp_eq in E. contradiction.
  - apply strcmp_lt in E. auto.
  - apply strcmp_gt in E. right. right. auto.
Qed.

Definition not_after (q p : plugin) : bool :=
  ((p_prio q <? p_prio p)%Z ||
   (p_prio q =? p_prio p)%Z && match strcmp (p_id q) (p_id p) with Gt => false | _ => true end).

Lemma not_after_spec q p : p_id q <> p_id p -> (not_after q p = true <-> before q p).
Proof.
  intros N. unfold not_after, before. rewrite orb_true_iff, andb_true_iff, Z.ltb_lt, Z.eqb_eq.
  destruct (strcmp (p_id q) (p_id p)) eqn:E.
  - apply strcmp_eq in E. contradiction.
  - apply strcmp_lt in E. intuition.
  - split; [|intros [H|[_ H]]; [auto|apply strcmp_lt in H; congruence]].
    intros [H|[_ H]]; [auto|discriminate].
Qed.

Lemma append_behind l p : (forall q, In q l -> p_id q <> p_id p) -> append_sorted l p = insert_behind p l.
Proof.
  intros N. destruct l as [|h l]; [reflexivity|]. cbn [append_sorted insert_behind].
  fold (not_after h p). specialize (N h (or_introl eq_refl)).
  set (b := (p_prio p <? p_prio h)%Z || _).
  assert (E : b = negb (not_after h p)); [|rewrite E; destruct (not_after h p); reflexivity].
  unfold b, not_after. destruct (strcmp (p_id h) (p_id p)) eqn:E; [apply strcmp_eq in E; contradiction| |];
    destruct (Z.ltb_spec (p_prio p) (p_prio h)), (Z.eqb_spec (p_prio h) (p_prio p)),
      (Z.ltb_spec (p_prio h) (p_prio p)); cbn; try reflexivity; lia.
Qed.

Lemma insert_in p l q : In q (insert_behind p l) <-> q = p \/ In q l.
Proof.
  induction l as [|h l IH]; cbn [insert_behind In]; [intuition|].
  fold (not_after h p). destruct (not_after h p); cbn [In]; [rewrite IH|]; intuition.
Qed.

Lemma insert_order p l :
  (forall q, In q l -> p_id q <> p_id p) -> in_order l -> in_order (insert_behind p l).
Proof.
  intros N. induction l as [|h l IH]; [cbn; intuition|]. cbn [insert_behind in_order]. intros [H1 H2].
  fold (not_after h p). assert (Nh : p_id h <> p_id p) by (apply N; left; reflexivity).
  pose proof (not_after_spec h p Nh) as S.
  destruct (not_after h p); cbn [in_order].
  - split; [|apply IH; [intros q I; apply N; right; exact I|exact H2]].
    intros q I. apply insert_in in I as [->|I]; [apply S; reflexivity|apply H1, I].
  - assert (Bp : before p h).
    { destruct (ids_decide h p Nh) as [X|X]; [|exact X]. apply S in X. discriminate. }
    split; [|split; assumption]. intros q [<-|I]; [exact Bp|].
    eapply before_trans; [exact Bp|apply H1, I].
Qed.

Lemma id_exists_spec l id : id_exists l id = true <-> exists p, In p l /\ p_id p = id.
Proof.
  induction l as [|h l IH]; cbn [id_exists]; [split; [discriminate|intros (p & [] & _)]|].
  rewrite orb_true_iff, IH, seq_eq. split.
  - intros [H|(p & I & H)]; [exists h|exists p]; split; auto; [left; reflexivity|right; exact I].
  - intros (p & [->|I] & H); [left; exact H|right; exists p; auto].
Qed.

(** The effect of registering on one of the two lists. *)
Definition lane (name : list ascii) (m : manager) : list plugin :=
  if seq_ name (B "pre_parse") then m_pre m else m_post m.
Definition phase_name (n : list ascii) : Prop := n = B "pre_parse" \/ n = B "post_render".

Lemma register_lane name m f :
  phase_name name ->
  lane name (register m f) =
    if match f_phase f with Some s => seq_ s name | None => false end && f_compiles f
       && negb (id_exists (lane name m) (p_id (f_plugin f)))
    then append_sorted (lane name m) (f_plugin f) else lane name m.
Proof.
  intros P. unfold register. destruct (f_phase f) as [s|]; [|reflexivity]. unfold phase_of.
  destruct (seq_ s (B "pre_parse")) eqn:E1.
  { apply seq_eq in E1. subst s.
    destruct P as [-> | ->]; cbn [lane]; destruct (f_compiles f); cbn [negb andb]; try reflexivity;
      unfold lane; cbn -[id_exists append_sorted];
      destruct (id_exists (m_pre m) (p_id (f_plugin f))); reflexivity. }
  destruct (seq_ s (B "block")) eqn:E2.
  { apply seq_eq in E2. subst s. destruct P as [-> | ->]; reflexivity. }
  destruct (seq_ s (B "inline")) eqn:E3.
  { apply seq_eq in E3. subst s. destruct P as [-> | ->]; reflexivity. }
  destruct (seq_ s (B "post_render")) eqn:E4.
  { apply seq_eq in E4. subst s.
    destruct P as [-> | ->]; cbn [lane]; destruct (f_compiles f); cbn [negb andb]; try reflexivity;
      unfold lane; cbn -[id_exists append_sorted];
      destruct (id_exists (m_post m) (p_id (f_plugin f))); reflexivity. }
  destruct (seq_ s name) eqn:E5; [|reflexivity]. apply seq_eq in E5. subst s.
  destruct P as [-> | ->]; discriminate.
Qed.

Lemma usable_spec name f :
  usable name f <-> match f_phase f with Some s => seq_ s name | None => false end && f_compiles f = true.
Proof.
  unfold usable. rewrite andb_true_iff. destruct (f_phase f) as [s|]; [rewrite seq_eq|].
  - split; [intros [[= ->] H]|intros [-> H]]; auto.
  - split; intros [H _]; discriminate.
Qed.

Lemma first_usable_snoc name fs f p :
  first_usable name (fs ++ [f]) p <->
  first_usable name fs p \/
  (f_plugin f = p /\ usable name f /\ forall g, In g fs -> usable name g -> p_id (f_plugin g) <> p_id p).
Proof.
  split.
  - intros (a & f' & b & E & F1 & F2 & F3). destruct b as [|b0 b] using rev_ind.
    + apply app_inj_tail in E as [-> ->]. right. auto.
    + clear IHb. change (a ++ f' :: b ++ [b0]) with (a ++ (f' :: b) ++ [b0]) in E. rewrite app_assoc in E.
      apply app_inj_tail in E as [-> ->]. left. exists a, f', b. auto.
  - intros [(a & f' & b & -> & F1 & F2 & F3)|(F1 & F2 & F3)].
    + exists a, f', (b ++ [f]). rewrite <- app_assoc. auto.
    + exists fs, f, []. auto.
Qed.

Lemma first_exists name fs : forall h, In h fs -> usable name h ->
  exists p, first_usable name fs p /\ p_id p = p_id (f_plugin h).
Proof.
  intros h Ih H1. induction fs as [|y fs IH]; [destruct Ih|].
  destruct (match f_phase y with Some s => seq_ s name | None => false end && f_compiles y
            && seq_ (p_id (f_plugin y)) (p_id (f_plugin h))) eqn:Y.
  - apply andb_true_iff in Y as [Y1 Y2]. apply seq_eq in Y2. exists (f_plugin y). split; [|exact Y2].
    exists [], y, fs. split; [reflexivity|]. split; [reflexivity|]. split; [apply usable_spec, Y1|]. intros g [].
  - destruct Ih as [->|Ih].
    + rewrite (proj1 (usable_spec name h) H1), (proj2 (seq_eq _ _) eq_refl) in Y. discriminate.
    + destruct (IH Ih) as (p & (a & f & b & -> & F1 & F2 & F3) & E). exists p. split; [|exact E].
      exists (y :: a), f, b. split; [reflexivity|]. split; [exact F1|]. split; [exact F2|].
      intros g [<-|I]; [|apply F3, I]. intros Uy X. apply usable_spec in Uy. rewrite Uy in Y. cbn [andb] in Y.
      rewrite X, E, (proj2 (seq_eq _ _) eq_refl) in Y. discriminate.
Qed.

Lemma load_lane name fs :
  phase_name name ->
  let l := lane name (fold_left register fs (mkm [] [])) in
  in_order l /\ (forall p, In p l <-> first_usable name fs p).
Proof.
  intros P. induction fs as [|f fs IH] using rev_ind.
  - cbn [fold_left]. assert (E : lane name (mkm [] []) = []) by (unfold lane; destruct (seq_ name _); reflexivity).
    rewrite E. split; [exact I|]. intros p. split; [intros []|]. intros (a & f & b & E2 & _). destruct a; discriminate.
  - rewrite fold_left_app. cbn [fold_left]. set (m := fold_left register fs (mkm [] [])) in *.
    cbv zeta in *. destruct IH as [IH1 IH2]. rewrite register_lane by exact P.
    pose proof (usable_spec name f) as U.
    assert (Cover : forall g, In g fs -> usable name g -> exists p, In p (lane name m) /\ p_id p = p_id (f_plugin g)).
    { intros g I Ug. destruct (first_exists name fs g I Ug) as (p & F & E). exists p. split; [apply IH2, F|exact E]. }
    destruct (match f_phase f with Some s => seq_ s name | None => false end && f_compiles f) eqn:Ef; cbn [andb].
    2: { split; [exact IH1|]. intros p. rewrite IH2, first_usable_snoc. split; [auto|].
         intros [H|(_ & H & _)]; [exact H|]. apply U in H. discriminate. }
    assert (Uf : usable name f) by (apply U; reflexivity).
    destruct (id_exists (lane name m) (p_id (f_plugin f))) eqn:X; cbn [negb].
    + apply id_exists_spec in X as (q & Iq & Eq). split; [exact IH1|]. intros p. rewrite IH2, first_usable_snoc.
      split; [auto|]. intros [H|(H1 & _ & H3)]; [exact H|]. exfalso.
      apply IH2 in Iq as (a & g & b & -> & G1 & G2 & _). apply (H3 g); [apply in_or_app; right; left; reflexivity|exact G2|].
      subst. congruence.
    + assert (N : forall q, In q (lane name m) -> p_id q <> p_id (f_plugin f)).
      { intros q I E. assert (Y : id_exists (lane name m) (p_id (f_plugin f)) = true) by (apply id_exists_spec; eauto).
        congruence. }
      rewrite append_behind by exact N. split; [apply insert_order; assumption|].
      intros p. rewrite insert_in, IH2, first_usable_snoc. split.
      * intros [->|H]; [right|left; exact H]. split; [reflexivity|]. split; [exact Uf|].
        intros g I Ug E. destruct (Cover g I Ug) as (q & Iq & Eq). apply (N q Iq). congruence.
      * intros [H|(H1 & _ & _)]; [right; exact H|left; symmetry; exact H1].
Qed.

(** Two lists in order with the same elements are equal. *)
Lemma order_unique l1 : forall l2, in_order l1 -> in_order l2 -> (forall p, In p l1 <-> In p l2) -> l1 = l2.
Proof.
  induction l1 as [|p l1 IH]; intros [|q l2] O1 O2 S.
  - reflexivity.
  - destruct (proj2 (S q) (or_introl eq_refl)).
  - destruct (proj1 (S p) (or_introl eq_refl)).
  - destruct O1 as [A1 O1], O2 as [A2 O2].
    assert (E : p = q).
    { destruct (proj1 (S p) (or_introl eq_refl)) as [E|I]; [auto|].
      destruct (proj2 (S q) (or_introl eq_refl)) as [E|J]; [auto|].
      exfalso. apply (before_irrefl p). eapply before_trans; [apply A1, J|apply A2, I]. }
    subst q. f_equal. apply IH; auto. intros r. split; intros I.
    + destruct (proj1 (S r) (or_intror I)) as [<-|J]; [|exact J]. destruct (before_irrefl p (A1 _ I)).
    + destruct (proj2 (S r) (or_intror I)) as [<-|J]; [|exact J]. destruct (before_irrefl p (A2 _ I)).
Qed.

Definition lists (m : option manager) : list plugin * list plugin :=
  match m with Some m => (m_pre m, m_post m) | None => ([], []) end.
Lemma lists_load fs : lists (load fs) =
  (lane (B "pre_parse") (fold_left register fs (mkm [] [])), lane (B "post_render") (fold_left register fs (mkm [] []))).
Proof.
  unfold load, lists, lane. destruct (fold_left register fs (mkm [] [])) as [[|p a] [|q b]]; reflexivity.
Qed.

Lemma load_ok fs :
  let (pre, post) := lists (load fs) in
  in_order pre /\ in_order post /\
  (forall p, In p pre <-> first_usable (B "pre_parse") fs p) /\
  (forall p, In p post <-> first_usable (B "post_render") fs p).
Proof.
  rewrite lists_load.
  destruct (load_lane (B "pre_parse") fs (or_introl eq_refl)) as [A1 A2].
  destruct (load_lane (B "post_render") fs (or_intror eq_refl)) as [B1 B2]. auto.
Qed.

(** With one plugin per id and phase the order of discovery does not matter. *)
Definition one_each (fs : list found) : Prop :=
  forall name f g, In f fs -> In g fs -> usable name f -> usable name g ->
    p_id (f_plugin f) = p_id (f_plugin g) -> f_plugin f = f_plugin g.

Lemma first_usable_any name fs p :
  phase_name name -> one_each fs ->
  (first_usable name fs p <-> exists f, In f fs /\ usable name f /\ f_plugin f = p).
Proof.
  intros P O. split.
  - intros (a & f & b & -> & F1 & F2 & _). exists f. split; [apply in_or_app; right; left; reflexivity|auto].
  - intros (f & I & U & E). destruct (first_exists name fs f I U) as (q & F & Eq).
    enough (X : q = p) by (rewrite <- X; exact F). subst p.
    destruct F as (a & g & b & -> & F1 & F2 & _). subst q. apply (O name); auto.
    apply in_or_app; right; left; reflexivity.
Qed.

Lemma load_order_irrelevant fs fs' :
  one_each fs -> (forall f, In f fs <-> In f fs') -> lists (load fs) = lists (load fs').
Proof.
  intros O S.
  assert (O' : one_each fs') by (intros n f g If Ig; apply (O n); apply S; assumption).
  pose proof (load_ok fs) as H. pose proof (load_ok fs') as H'.
  destruct (lists (load fs)) as [a b], (lists (load fs')) as [a' b'].
  destruct H as (H1 & H2 & H3 & H4), H' as (K1 & K2 & K3 & K4).
  assert (E : forall name p, phase_name name -> first_usable name fs p <-> first_usable name fs' p).
  { intros name p P. rewrite !first_usable_any by assumption. split; intros (f & I & X); exists f; split; auto; apply S; exact I. }
  f_equal; apply order_unique; auto; intros p.
  - rewrite H3, K3. apply E. left. reflexivity.
  - rewrite H4, K4. apply E. right. reflexivity.
Qed.

(** ** Regular expressions *)
Lemma fill_ok g s n : forall (tpl : list ascii) w, length tpl <= n -> fits w -> exists x : list ascii,
  expansion g s tpl x /\ fits (fill g s tpl w) /\ w_out (fill g s tpl w) = w_out w ++ x.
Proof.
  induction n as [|n IH]; intros tpl w L F.
  { destruct tpl; [|cbn in L; lia]. exists []. split; [constructor|]. split; [exact F|]. cbn [fill]. rewrite app_nil_r. reflexivity. }
  destruct tpl as [|c tpl].
  { exists []. split; [constructor|]. split; [exact F|]. cbn [fill]. rewrite app_nil_r. reflexivity. }
  cbn [length] in L. cbn [fill].
  destruct (append_ok [c] w F) as (A1 & A2 & _).
  destruct tpl as [|d tpl].
  { exists [c]. split; [|split; [exact A1|exact A2]]. apply xp_byte; [discriminate|constructor]. }
  destruct (ceq c "$" && isdigit d) eqn:E.
  - apply andb_true_iff in E as [E1 E2]. apply ceq_eq in E1. subst c. cbn [length] in L.
    assert (T : forall w', fits w' -> w_out w' = w_out w ++ group_text g s (N.to_nat (code d - 48)) ->
      exists x, expansion g s ("$"%char :: d :: tpl) x /\ fits (fill g s tpl w') /\ w_out (fill g s tpl w') = w_out w ++ x).
    { intros w' F' O'. destruct (IH tpl w') as (x & X1 & X2 & X3); [lia|exact F'|].
      exists (group_text g s (N.to_nat (code d - 48)) ++ x). split; [apply xp_group; assumption|].
      split; [exact X2|]. rewrite X3, O', app_assoc. reflexivity. }
    unfold group_text in T. destruct (g (N.to_nat (code d - 48))) as [[a b]|].
    + destruct (Nat.leb_spec a b).
      * destruct (append_ok (firstn (b - a) (skipn a s)) w F) as (C1 & C2 & _). apply T; assumption.
      * apply T; [exact F|]. replace (b - a) with 0 by lia. cbn [firstn]. rewrite app_nil_r. reflexivity.
    + apply T; [exact F|]. rewrite app_nil_r. reflexivity.
  - destruct (IH (d :: tpl) (append [c] w)) as (x & X1 & X2 & X3); [cbn [length] in *; lia|exact A1|].
    exists (c :: x). split; [|split; [exact X2|]].
    + apply xp_byte; [|exact X1]. intros -> d' t [= <- _]. exact E.
    + rewrite X3, A2, <- app_assoc. reflexivity.
Qed.

Lemma expansion_fun g s t x : expansion g s t x -> forall y, expansion g s t y -> x = y.
Proof.
  induction 1 as [|d t o D H IH|c t o C H IH]; intros y K; inversion K; subst; auto.
  - f_equal. auto.
  - match goal with H : forall _, _ |- _ => specialize (H eq_refl d t eq_refl); congruence end.
  - specialize (C eq_refl d t0 eq_refl). congruence.
  - f_equal. auto.
Qed.

(** For every sound matcher the loop ends inside its block. *)
Lemma regex_loop_safe exec tpl : sound_match exec ->
  forall fuel any w cursor, length cursor < fuel -> fits w ->
  exists any' w' cursor', regex_loop fuel exec tpl any w cursor = Some (any', w', cursor') /\ fits w'.
Proof.
  intros S. induction fuel as [|fuel IH]; intros any w cursor L F; [lia|]. cbn [regex_loop].
  destruct (exec cursor) as [g|] eqn:E; [|eauto 6]. destruct (g 0) as [[so eo]|] eqn:E0; [|eauto 6].
  pose proof (S cursor g 0 so eo E E0) as B.
  destruct (append_ok (firstn so cursor) w F) as (A1 & _ & _).
  destruct (fill_ok g cursor (length tpl) tpl _ (le_n _) A1) as (x & _ & X2 & _).
  destruct eo as [|eo].
  - destruct cursor as [|c cursor]; [eauto 6|]. cbn [length] in L.
    apply IH; [lia|]. apply (append_ok [c] _ X2).
  - apply IH; [|exact X2]. rewrite skipn_length. lia.
Qed.

(** [rx] does not look at the text in front, and never matches nothing. *)
Definition plain_matcher (exec : list ascii -> option groups) : Prop :=
  forall s g, exec s = Some g -> exists a b, g 0 = Some (a, b) /\ a < b.

Lemma regex_loop_sed exec tpl : sound_match exec -> plain_matcher exec ->
  forall fuel any w cursor bef adj, length cursor < fuel -> fits w ->
  exists any' w' cursor' o, regex_loop fuel exec tpl any w cursor = Some (any', w', cursor') /\ fits w' /\
    sed (fun _ => exec) tpl bef adj cursor o /\ w_out w' ++ cursor' = w_out w ++ o /\
    (any' = false -> any = false /\ o = cursor /\ exec cursor = None) /\
    (any' = true -> any = true \/ exec cursor <> None).
Proof.
  intros S P. induction fuel as [|fuel IH]; intros any w cursor bef adj L F; [lia|]. cbn [regex_loop].
  destruct (exec cursor) as [g|] eqn:E.
  2: { exists any, w, cursor, cursor. split; [reflexivity|]. split; [exact F|]. split; [apply sed_none, E|].
       split; [reflexivity|]. split; auto. }
  destruct (P cursor g E) as (so & eo & E0 & Lt). rewrite E0.
  pose proof (S cursor g 0 so eo E E0) as B.
  destruct (append_ok (firstn so cursor) w F) as (A1 & A2 & _).
  destruct (fill_ok g cursor (length tpl) tpl _ (le_n _) A1) as (x & X1 & X2 & X3).
  destruct eo as [|eo]; [lia|].
  destruct (IH true (fill g cursor tpl (append (firstn so cursor) w)) (skipn (Datatypes.S eo) cursor)
              (bef ++ firstn (Datatypes.S eo) cursor) true) as (any' & w' & c' & o & R1 & R2 & R3 & R4 & R5 & R6).
  { rewrite skipn_length. lia. }
  { exact X2. }
  exists any', w', c', (firstn so cursor ++ x ++ o). split; [exact R1|]. split; [exact R2|].
  split; [eapply sed_match; eassumption|]. split.
  - rewrite R4, X3, A2, <- !app_assoc. reflexivity.
  - split; [|right; discriminate]. intros X. destruct (R5 X). discriminate.
Qed.

Lemma regex_finish_ok tail w : fits w -> w_oob (regex_finish tail w) = false /\ w_out (regex_finish tail w) = w_out w ++ tail.
Proof.
  intros F. unfold regex_finish. set (n := length (w_out w) + length tail + 1).
  set (w1 := if w_cap w <? n then Wr n (w_out w) (w_rem w) (w_oob w) else w).
  assert (G : fits w1 /\ n <= w_cap w1 /\ w_out w1 = w_out w).
  { unfold w1. destruct (Nat.ltb_spec (w_cap w) n).
    - split; [split; [apply F|cbn [w_out w_cap]; unfold n; lia]|]. split; [cbn [w_cap]; lia|reflexivity].
    - auto. }
  destruct G as (G1 & G2 & G3). split; [|cbn [w_term w_store w_out]; rewrite G3; reflexivity].
  apply term_fits.
  - apply store_fits; [exact G1|]. rewrite G3. unfold n in G2. lia.
  - cbn [w_store w_out w_cap]. rewrite app_length, G3. unfold n in G2. lia.
Qed.

Lemma regex_replace_safe exec tpl input : sound_match exec ->
  exists r, regex_replace exec tpl input = Some r /\ match r with Some w => w_oob w = false | None => True end.
Proof.
  intros S. unfold regex_replace.
  destruct (regex_loop_safe exec tpl S (Datatypes.S (length input)) false (w_new (length input + 1) 0) input)
    as (any & w & c & -> & F); [lia|apply new_fits|].
  destruct any; eexists; (split; [reflexivity|]); [apply regex_finish_ok, F|exact I].
Qed.

Lemma sed_fun rx tpl b adj s o : (forall b s, rx b s = None \/ exists g x y, rx b s = Some g /\ g 0 = Some (x, y) /\ x < y <= length s) ->
  sed rx tpl b adj s o -> forall o', sed rx tpl b adj s o' -> o = o'.
Proof.
  intros P. induction 1 as [b adj s H|b adj s g so eo x o H H0 Lt X S IH|b adj s g x H H0 A X
    |b adj s1 c s2 g x o H H0 A X S IH|b g H H0|b c s g o H H0 S IH]; intros o' K.
  - destruct (P b s) as [E|(g & u & v & E & _)]; [|congruence].
    inversion K; subst; auto; congruence.
  - inversion K; subst; try congruence.
    + assert (g0 = g) by congruence. subst g0. assert (E : (so0, eo0) = (so, eo)) by congruence. injection E as -> ->.
      f_equal. f_equal; [eapply expansion_fun; eassumption|auto].
    + assert (g0 = g) by congruence. subst g0. match goal with K : g 0 = Some (?z, ?z) |- _ => rewrite H0 in K; injection K; lia end.
    + assert (g0 = g) by congruence. subst g0. match goal with K : g 0 = Some (?z, ?z) |- _ => rewrite H0 in K; injection K; lia end.
    + assert (g0 = g) by congruence. subst g0. match goal with K : g 0 = Some (?z, ?z) |- _ => rewrite H0 in K; injection K; lia end.
    + assert (g0 = g) by congruence. subst g0. match goal with K : g 0 = Some (?z, ?z) |- _ => rewrite H0 in K; injection K; lia end.
  - destruct (P b s) as [E|(g' & u & v & E & E0 & ?)]; [congruence|]. assert (g' = g) by congruence. subst.
    assert (E1 : (u, v) = (length s, length s)) by congruence. injection E1. lia.
  - destruct (P b (s1 ++ c :: s2)) as [E|(g' & u & v & E & E0 & ?)]; [congruence|]. assert (g' = g) by congruence. subst.
    assert (E1 : (u, v) = (length s1, length s1)) by congruence. injection E1. lia.
  - destruct (P b []) as [E|(g' & u & v & E & E0 & ?)]; [congruence|]. assert (g' = g) by congruence. subst.
    assert (E1 : (u, v) = (0, 0)) by congruence. injection E1. lia.
  - destruct (P b (c :: s)) as [E|(g' & u & v & E & E0 & ?)]; [congruence|]. assert (g' = g) by congruence. subst.
    assert (E1 : (u, v) = (0, 0)) by congruence. injection E1. lia.
Qed.

Lemma regex_replace_sed exec tpl input : sound_match exec -> plain_matcher exec ->
  exists o, sed (fun _ => exec) tpl [] false input o /\
    match exec input with
    | None => regex_replace exec tpl input = Some None /\ o = input
    | Some _ => exists w, regex_replace exec tpl input = Some (Some w) /\ w_oob w = false /\ w_out w = o
    end.
Proof.
  intros S P. unfold regex_replace.
  destruct (regex_loop_sed exec tpl S P (Datatypes.S (length input)) false (w_new (length input + 1) 0) input [] false)
    as (any & w & c & o & -> & F & R1 & R2 & R3 & R4); [lia|apply new_fits|].
  exists o. split; [exact R1|]. cbn [w_new w_out app] in R2. destruct any.
  - destruct (R4 eq_refl) as [X|X]; [discriminate|]. destruct (exec input); [|congruence].
    exists (regex_finish c w). split; [reflexivity|]. destruct (regex_finish_ok c w F) as [Y1 Y2].
    split; [exact Y1|]. rewrite Y2. exact R2.
  - destruct (R3 eq_refl) as (_ & X & ->). auto.
Qed.

(** ** Running a phase *)
Lemma setenv_get k v e k' : setenv k v e k' = if seq_ k k' then Some v else e k'.
Proof. reflexivity. Qed.
Lemma seq_refl k : seq_ k k = true.
Proof. apply seq_eq. reflexivity. Qed.
Lemma seq_neq a b : a <> b -> seq_ a b = false.
Proof. intros N. destruct (seq_ a b) eqn:E; [apply seq_eq in E; contradiction|reflexivity]. Qed.

Lemma restore_get k old e k' : restore k old e k' = if seq_ k k' then old else e k'.
Proof. destruct old; reflexivity. Qed.

Definition X_ext (X : external) : Prop := forall e e' c n i t, (forall k, e k = e' k) -> X e c n i t = X e' c n i t.

Lemma run_plugin_ok X name file p e cur :
  (match p_act p with Regex exec _ => sound_match exec | _ => True end) ->
  exists next e', run_plugin X name file p e cur = Some (next, e') /\ (forall k, e' k = e k) /\
    effect X name file e p cur (match next with Some t => t | None => cur end).
Proof.
  intros S. unfold run_plugin, effect. destruct (p_act p) as [cmd dir support|exec tpl|].
  - eexists _, _. split; [reflexivity|]. split.
    + intros k. rewrite restore_get. destruct (seq_ FILE_PATH k) eqn:K1.
      { apply seq_eq in K1. subst k. destruct support; reflexivity. }
      destruct support as [s|].
      * rewrite restore_get. destruct (seq_ SUPPORT_DIR k) eqn:K2.
        { apply seq_eq in K2. subst k. reflexivity. }
        rewrite restore_get. destruct (seq_ PLUGIN_DIR k) eqn:K3.
        { apply seq_eq in K3. subst k. reflexivity. }
        rewrite !setenv_get, K1, K2, K3. reflexivity.
      * rewrite restore_get. destruct (seq_ PLUGIN_DIR k) eqn:K3.
        { apply seq_eq in K3. subst k. reflexivity. }
        rewrite !setenv_get, K1, K3. reflexivity.
    + set (e3 := setenv FILE_PATH file (match support with Some s => setenv SUPPORT_DIR s (setenv PLUGIN_DIR dir e)
                                         | None => setenv PLUGIN_DIR dir e end)).
      exists e3. split; [|reflexivity]. unfold sees, e3. destruct support as [s|].
      * split; [reflexivity|]. split; [reflexivity|]. split; [reflexivity|]. intros k N1 N2 N3.
        rewrite !setenv_get, !seq_neq by congruence. reflexivity.
      * split; [reflexivity|]. split; [reflexivity|]. split; [reflexivity|]. intros k N1 N2 N3.
        rewrite !setenv_get, !seq_neq by congruence. reflexivity.
  - destruct (regex_replace_safe exec tpl cur S) as (r & R1 & R2). rewrite R1. destruct r as [w|].
    + rewrite R2. eexists _, _. split; [reflexivity|]. split; [reflexivity|]. exists (Some w). auto.
    + eexists _, _. split; [reflexivity|]. split; [reflexivity|]. exists None. auto.
  - eexists _, _. split; [reflexivity|]. split; reflexivity.
Qed.

Lemma sees_ext e e' file d s x : (forall k, e' k = e k) -> sees e' file d s x -> sees e file d s x.
Proof.
  intros E (H1 & H2 & H3 & H4). split; [exact H1|]. split; [exact H2|]. split.
  - rewrite H3. destruct s; [reflexivity|apply E].
  - intros k A B C. rewrite H4 by assumption. apply E.
Qed.
Lemma effect_ext X name file e e' p t t' : (forall k, e' k = e k) ->
  effect X name file e' p t t' -> effect X name file e p t t'.
Proof.
  intros E. unfold effect. destruct (p_act p); auto. intros (x & H & ->). exists x. split; [|reflexivity].
  eapply sees_ext; eassumption.
Qed.

Lemma run_list_ok X name file l : forall e e0 cur,
  (forall k, e k = e0 k) ->
  Forall (fun p => match p_act p with Regex exec _ => sound_match exec | _ => True end) l ->
  exists cur' e', run_list X name file l e cur = Some (cur', e') /\ (forall k, e' k = e0 k) /\
    effects X name file e0 l cur cur'.
Proof.
  induction l as [|p l IH]; intros e e0 cur E F.
  - exists cur, e. split; [reflexivity|]. split; [exact E|constructor].
  - inversion F as [|? ? F1 F2]; subst. cbn [run_list].
    destruct (run_plugin_ok X name file p e cur F1) as (next & e1 & -> & E1 & H).
    destruct (IH e1 e0 (match next with Some t => t | None => cur end)) as (c' & e' & R1 & R2 & R3).
    { intros k. rewrite E1. apply E. }
    { exact F2. }
    exists c', e'. split; [exact R1|]. split; [exact R2|]. eapply ef_cons; [|exact R3].
    eapply effect_ext; [|exact H]. exact E.
Qed.

Lemma run_phase_ok X file m ph e text l name :
  (ph = PreParse /\ l = m_pre m /\ name = B "pre_parse") \/ (ph = PostRender /\ l = m_post m /\ name = B "post_render") ->
  Forall (fun p => match p_act p with Regex exec _ => sound_match exec | _ => True end) l ->
  exists r e' t', run_phase X file m ph e text = Some (r, e') /\ (forall k, e' k = e k) /\
    effects X name file e l text t' /\ (r = None <-> t' = text) /\ (forall t, r = Some t -> t = t').
Proof.
  intros P F.
  assert (E : run_phase X file m ph e text =
    match run_list X name file l e text with None => None
    | Some (cur, e') => Some (if seq_ cur text then None else Some cur, e') end).
  { destruct P as [(-> & -> & ->)|(-> & -> & ->)]; reflexivity. }
  destruct (run_list_ok X name file l e e text (fun k => eq_refl) F) as (c & e' & R1 & R2 & R3).
  rewrite E, R1. exists (if seq_ c text then None else Some c), e', c.
  split; [reflexivity|]. split; [exact R2|]. split; [exact R3|]. destruct (seq_ c text) eqn:Q.
  - apply seq_eq in Q. split; [tauto|discriminate].
  - split; [|congruence]. split; [discriminate|]. intros ->. rewrite seq_refl in Q. discriminate.
Qed.
