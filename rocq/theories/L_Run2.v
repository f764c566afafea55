(** Proofs about M_Run: everything in front of the parser. *)
From Verif Require Import Base BaseL M_Opt M_Run S_Run L_Run.

(** ** Conditions *)
Lemma is_on_true v : is_on v = true <-> v = Vb true.
Proof. destruct v as [b| | |]; simpl; split; try discriminate; congruence. Qed.
Lemma mode_is_true m o : mode_is m o = true <-> o Mode = Vn m.
Proof.
  unfold mode_is. destruct (o Mode) as [|n| |]; split; try discriminate.
  - intro H. apply Z.eqb_eq in H. congruence.
  - intro H. injection H as ->. apply Z.eqb_refl.
Qed.
Lemma kramdown_in o : kramdown_like o = true <-> in_mode o [3; 4]%Z.
Proof.
  unfold kramdown_like, in_mode. rewrite Bool.orb_true_iff, !mode_is_true. split.
  - intros [H|H]; eexists; (split; [exact H|]); simpl; auto.
  - intros (m & H & [<-|[<-|[]]]); auto.
Qed.
Lemma mmd_in o : mmd_like o = true <-> in_mode o [2; 3; 4]%Z.
Proof.
  unfold mmd_like, in_mode. rewrite !Bool.orb_true_iff, !mode_is_true. split.
  - intros [[H|H]|H]; eexists; (split; [exact H|]); simpl; auto.
  - intros (m & H & [<-|[<-|[<-|[]]]]); auto.
Qed.
Lemma only_in o ms : in_mode o ms <-> exists m, o Mode = Vn m /\ In m ms.
Proof. reflexivity. Qed.

Lemma runs_when o meta cite s : twhen o meta cite s = true <-> runs o meta cite s.
Proof.
  unfold runs, meets. destruct s; cbn [twhen needs fst snd any_mode only];
    rewrite ?Bool.andb_true_iff, ?Bool.negb_true_iff, ?is_on_true, <- ?only_in, <- ?kramdown_in, <- ?mmd_in;
    try (split; [intros; intuition (cbn [In] in *; intuition congruence)
                |intros; repeat match goal with H : _ /\ _ |- _ => destruct H end;
                 intuition (auto with datatypes)]; fail).
  - rewrite Bool.orb_true_iff, !mode_is_true. split.
    + intros [H1 H2]. split; [split|exact I].
      * intros f [<-|[]]; assumption.
      * destruct H2 as [H2|H2]; eexists; (split; [exact H2|]); simpl; auto.
    + intros [[H (m & H2 & H3)] _]. split; [apply H; now left|].
      destruct H3 as [<-|[<-|[]]]; auto.
  - split.
    + intro H. split; [split; [intros f []|exact I]|]. intro E. apply is_on_true in E. congruence.
    + intros [_ H]. destruct (is_on (o ProofreaderMode)) eqn:E; [|reflexivity]. apply is_on_true in E. contradiction.
  - rewrite mode_is_true. split.
    + intros [H1 H2]. split; [split|exact I]; [intros f [<-|[]]; assumption|].
      eexists. split; [exact H2|]. simpl. auto.
    + intros [[H (m & H2 & H3)] _]. split; [apply H; now left|]. destruct H3 as [<-|[]]. assumption.
Qed.

(** ** The last line *)
Lemma no_line_end_nil : no_line_end [] = false.
Proof. reflexivity. Qed.
Lemma no_line_end_snoc a c : no_line_end (a ++ [c]) = negb (ceq c NL || ceq c CR).
Proof. unfold no_line_end. now rewrite rev_app_distr. Qed.
Lemma closes_fun t : t <> [] -> closes t (if no_line_end t then t ++ [NL] else t).
Proof.
  intro H. destruct (exists_last H) as (a & c & ->). rewrite no_line_end_snoc.
  destruct (ceq c NL) eqn:E1; [apply ceq_eq in E1; simpl; apply c_has; now left|].
  destruct (ceq c CR) eqn:E2; [apply ceq_eq in E2; simpl; apply c_has; now right|].
  simpl. rewrite <- app_assoc. apply c_adds; now apply ceq_neq.
Qed.
Lemma open_line_fun t : open_line t <-> t = [] \/ no_line_end t = true.
Proof.
  unfold open_line. split.
  - intros [->|(a & c & -> & H1 & H2)]; [now left|right]. rewrite no_line_end_snoc.
    apply ceq_neq in H1. apply ceq_neq in H2. now rewrite H1, H2.
  - intros [->|H]; [now left|right]. destruct t as [|x t]; [discriminate|].
    destruct (exists_last (l := x :: t)) as (a & c & E); [discriminate|]. rewrite E in *.
    rewrite no_line_end_snoc in H. exists a, c. split; [reflexivity|].
    apply Bool.negb_true_iff, Bool.orb_false_iff in H as [H1 H2].
    split; now apply ceq_neq.
Qed.
Lemma wants_in s : wants_newline s = true <-> In s [TRelaxed; THeaderless; TColspans; TCaptions].
Proof. destruct s; simpl; split; intuition discriminate. Qed.
Lemma given_fun s t : given s t (if (wants_newline s && no_line_end t)%bool then t ++ [NL] else t).
Proof.
  destruct (wants_newline s) eqn:E; simpl.
  - destruct t as [|x t]; [apply g_empty|]. apply g_table; [now apply wants_in|discriminate|].
    apply closes_fun. discriminate.
  - apply g_plain. intro H. apply wants_in in H. congruence.
Qed.

(** ** One step *)
Definition calm (a : view) : Prop := forall v, a v <> Gone.
Definition leaf (s : tstep) : option var :=
  match s with TIndices => Some VIndex | TImageAttrs => Some VImg | TLiquid => Some VLiquidTags | _ => None end.
Lemma calm_upd a v c : calm a -> calm (upd a v (Holds c)).
Proof. intros H w. unfold upd. destruct (veq w v); [discriminate|apply H]. Qed.
Lemma calm_null a v : calm a -> calm (upd a v Null).
Proof. intros H w. unfold upd. destruct (veq w v); [discriminate|apply H]. Qed.
Lemma calm_if a v c (b : bool) : calm a -> calm (if b then upd a v (Holds c) else a).
Proof. destruct b; [apply calm_upd|auto]. Qed.

Section Front.
Context {R : Type} (l : lib R).

Lemma tx_read s a t : rep (R := R) s a -> tx s a t -> read (txt s) s = Ok t s.
Proof.
  intros Hr (v & Ev & Ha). destruct (rep_holds _ _ Hr v t Ha) as (p & Ep & Lp). rewrite Ev in Ep.
  injection Ep as <-. now apply read_ok.
Qed.

Lemma tleaves_ok x s a : rep (R := R) s a -> (forall v, leaf x = Some v -> a v = Null) -> calm a ->
  exists s' a', tleaves l x s = Ok tt s' /\ rep s' a' /\ reg s' = reg s /\ txt s' = txt s /\ calm a' /\
    (forall w, leaf x <> Some w -> a' w = a w) /\ (forall w, leaf x <> Some w -> env s' w = env s w).
Proof.
  intros Hr Hl Hc. unfold tleaves. unfold bind at 1. cbn [get_reg].
  assert (G : forall b v, leaf x = Some v -> exists s' a', own_if b v s = Ok tt s' /\ rep s' a' /\ reg s' = reg s /\
    txt s' = txt s /\ calm a' /\ (forall w, leaf x <> Some w -> a' w = a w) /\
    (forall w, leaf x <> Some w -> env s' w = env s w)).
  { intros b v Hv. destruct (own_if_ok b v s a Hr (Hl v Hv)) as (s' & E & Hr' & Q & T & N).
    exists s', (if b then upd a v (Holds []) else a). repeat (split; [assumption|]). split; [now apply calm_if|].
    split.
    - intros w Hw. destruct b; [|reflexivity]. apply upd_neq. intros ->. contradiction.
    - intros w Hw. apply N. intros ->. contradiction. }
  assert (Z : exists s' a', ret tt s = Ok tt s' /\ rep s' a' /\ reg s' = reg s /\ txt s' = txt s /\ calm a' /\
    (forall w, leaf x <> Some w -> a' w = a w) /\ (forall w, leaf x <> Some w -> env s' w = env s w)).
  { exists s, a. repeat (split; [reflexivity||assumption|]). reflexivity. }
  unfold get_reg. destruct x; first [exact Z | apply G; reflexivity].
Qed.

Definition made_of (m : list tstep) (x : tstep) (y : vst) : Prop :=
  match m with [] => y = Null | [z] => z = x /\ exists c, y = Holds c | _ => False end.

Lemma run_tstep_ok o meta cite x s a t :
  rep (R := R) s a -> tx s a t -> calm a -> a VNormal = Null -> a (VStep x) = Null ->
  (forall v, leaf x = Some v -> a v = Null) ->
  exists s' a' t' m, run_tstep l o meta cite x s = Ok tt s' /\ rep s' a' /\
    stepped l o meta cite x (reg s) t (reg s') t' m /\ tx s' a' t' /\ calm a' /\
    (forall w, w <> VStep x -> leaf x <> Some w -> a' w = a w) /\ made_of m x (a' (VStep x)).
Proof.
  intros Hr Ht Hc Hn Hx Hl. unfold run_tstep. destruct (twhen o meta cite x) eqn:W.
  2:{ exists s, a, t, []. repeat (split; [reflexivity||assumption|]). split.
      - apply s_off. intro H. apply runs_when in H. congruence.
      - repeat (split; [assumption|]). split; [reflexivity|exact Hx]. }
  apply runs_when in W.
  assert (NL0 : leaf x <> Some (VStep x)) by (destruct x; discriminate).
  assert (NL1 : leaf x <> Some VNormal) by (destruct x; discriminate).
  unfold bind at 1. cbn [text_ptr]. unfold text_ptr.
  rewrite (bind_ok _ _ _ _ _ (tx_read s a t Hr Ht)).
  rewrite (bind_ok _ _ _ _ _ (touch_all_ok (tuses x) s a Hr (fun v _ => Hc v))).
  unfold bind at 1. unfold get_reg at 1.
  pose proof (given_fun x t) as Gv.
  destruct Ht as (tv & Etv & Atv).
  assert (Ntv : tv <> VNormal) by congruence.
  assert (Stv : tv <> VStep x) by congruence.
  assert (Ltv : leaf x <> Some tv) by (intro F; apply Hl in F; congruence).
  destruct (wants_newline x && no_line_end t)%bool eqn:WN.
  - destruct (alloc_ok VNormal (t ++ [NL]) s a Hr Hn) as (s1 & E1 & Hr1 & Q1 & T1 & N1 & O1 & L1).
    unfold bind at 1. rewrite (bind_ok _ _ _ _ _ E1).
    rewrite (bind_ok _ _ _ _ _ (read_ok _ _ _ L1)).
    destruct (l_text l x o (reg s) (t ++ [NL])) as [out r'] eqn:LT.
    destruct (set_reg_ok r' s1 _ Hr1) as (s2 & E2 & Hr2 & Q2 & T2 & N2).
    rewrite (bind_ok _ _ _ _ _ E2).
    set (a1 := upd a VNormal (Holds (t ++ [NL]))) in *.
    destruct out as [c|].
    + destruct (alloc_ok (VStep x) c s2 a1 Hr2) as (s3 & E3 & Hr3 & Q3 & T3 & N3 & O3 & L3).
      { unfold a1. rewrite upd_neq by discriminate. assumption. }
      unfold bind at 2. unfold bind at 1. rewrite E3. unfold ret at 1.
      destruct (free_ok VNormal s3 _ Hr3) as (s4 & E4 & Hr4 & Q4 & T4 & N4).
      { rewrite upd_neq by discriminate. unfold a1. rewrite upd_eq. discriminate. }
      rewrite (bind_ok _ _ _ _ _ E4).
      destruct (forget_ok VNormal s4 _ Hr4) as (s5 & E5 & Hr5 & Q5 & T5 & N5).
      { intros d. rewrite upd_eq. rewrite upd_neq by discriminate. unfold a1. rewrite upd_eq. discriminate. }
      rewrite (bind_ok _ _ _ _ _ E5).
      rewrite (bind_ok _ _ _ _ _ (owner_ok (VStep x) s5)).
      rewrite N5 by discriminate. rewrite N4, N3.
      destruct (set_text_ok (fresh s2) s5 _ Hr5) as (s6 & E6 & Hr6 & Q6 & T6 & N6). rewrite E6.
      match type of Hr6 with rep _ ?v => set (a6 := v) in * end.
      assert (A6 : forall w, w <> VStep x -> a6 w = a w).
      { intros w Hw. unfold a6, a1, upd. destruct (veq w VNormal) eqn:En.
        - apply veq_eq in En as ->. now rewrite Hn.
        - now rewrite (proj2 (veq_neq w (VStep x)) Hw). }
      assert (B6 : a6 (VStep x) = Holds c).
      { unfold a6. rewrite !upd_neq by discriminate. apply upd_eq. }
      destruct (tleaves_ok x s6 a6 Hr6) as (s7 & a7 & E7 & Hr7 & Q7 & T7 & C7 & O7 & N7).
      { intros v Hv. rewrite A6 by (intros ->; contradiction). now apply Hl. }
      { intro w. destruct (var_dec w (VStep x)) as [->|Hw]; [now rewrite B6|rewrite A6 by assumption; apply Hc]. }
      exists s7, a7, c, [x]. split; [exact E7|]. split; [assumption|]. split.
      { replace (reg s7) with r' by congruence. eapply s_made; [exact W|exact Gv|exact LT]. }
      split.
      { exists (VStep x). rewrite N7, O7 by assumption. split; [|assumption].
        rewrite T7, T6, N6. rewrite N5 by discriminate. now rewrite N4, N3. }
      split; [assumption|]. split.
      { intros w Hw Hw2. rewrite O7 by assumption. now apply A6. }
      simpl. split; [reflexivity|]. rewrite O7 by assumption. eauto.
    + rewrite (bind_ok (ret tt) _ s2 tt s2 eq_refl).
      destruct (free_ok VNormal s2 _ Hr2) as (s4 & E4 & Hr4 & Q4 & T4 & N4).
      { unfold a1. rewrite upd_eq. discriminate. }
      rewrite (bind_ok _ _ _ _ _ E4).
      destruct (forget_ok VNormal s4 _ Hr4) as (s5 & E5 & Hr5 & Q5 & T5 & N5).
      { intros d. rewrite upd_eq. unfold a1. rewrite upd_eq. discriminate. }
      rewrite (bind_ok _ _ _ _ _ E5). unfold ret at 1.
      match type of Hr5 with rep _ ?v => set (a5 := v) in * end.
      assert (A5 : forall w, a5 w = a w).
      { intros w. unfold a5, a1, upd. destruct (veq w VNormal) eqn:En; [|reflexivity].
        apply veq_eq in En as ->. now rewrite Hn. }
      destruct (tleaves_ok x s5 a5 Hr5) as (s7 & a7 & E7 & Hr7 & Q7 & T7 & C7 & O7 & N7).
      { intros v Hv. rewrite A5. now apply Hl. }
      { intro w. rewrite A5. apply Hc. }
      exists s7, a7, t, []. split; [exact E7|]. split; [assumption|]. split.
      { replace (reg s7) with r' by congruence. eapply s_null; [exact W|exact Gv|exact LT]. }
      split.
      { exists tv. rewrite N7, O7, A5 by assumption. split; [|assumption].
        rewrite T7, T5, T4, T2, T1, <- Etv. rewrite N5 by assumption. rewrite N4, N2. now apply O1. }
      split; [assumption|]. split.
      { intros w Hw Hw2. rewrite O7 by assumption. apply A5. }
      simpl. rewrite O7 by assumption. now rewrite A5.
  - destruct (l_text l x o (reg s) t) as [out r'] eqn:LT.
    destruct (set_reg_ok r' s _ Hr) as (s2 & E2 & Hr2 & Q2 & T2 & N2).
    unfold bind at 1. rewrite (bind_ok _ _ _ _ _ E2).
    destruct out as [c|].
    + destruct (alloc_ok (VStep x) c s2 a Hr2 Hx) as (s3 & E3 & Hr3 & Q3 & T3 & N3 & O3 & L3).
      rewrite (bind_ok _ _ _ _ _ E3).
      destruct (set_text_ok (fresh s2) s3 _ Hr3) as (s6 & E6 & Hr6 & Q6 & T6 & N6). rewrite E6.
      destruct (tleaves_ok x s6 _ Hr6) as (s7 & a7 & E7 & Hr7 & Q7 & T7 & C7 & O7 & N7).
      { intros v Hv. rewrite upd_neq by (intros ->; contradiction). now apply Hl. }
      { now apply calm_upd. }
      exists s7, a7, c, [x]. split; [exact E7|]. split; [assumption|]. split.
      { replace (reg s7) with r' by congruence. eapply s_made; [exact W|exact Gv|exact LT]. }
      split.
      { exists (VStep x). rewrite N7, O7 by assumption. rewrite upd_eq. split; [|reflexivity].
        now rewrite T7, T6, N6, N3. }
      split; [assumption|]. split.
      { intros w Hw Hw2. rewrite O7 by assumption. now apply upd_neq. }
      simpl. split; [reflexivity|]. rewrite O7 by assumption. rewrite upd_eq. eauto.
    + unfold ret at 1.
      destruct (tleaves_ok x s2 a Hr2 Hl Hc) as (s7 & a7 & E7 & Hr7 & Q7 & T7 & C7 & O7 & N7).
      exists s7, a7, t, []. split; [exact E7|]. split; [assumption|]. split.
      { replace (reg s7) with r' by congruence. eapply s_null; [exact W|exact Gv|exact LT]. }
      split.
      { exists tv. rewrite N7, O7 by assumption. split; [|assumption]. now rewrite T7, T2, N2. }
      split; [assumption|]. split.
      { intros w Hw Hw2. now rewrite O7 by assumption. }
      simpl. now rewrite O7 by assumption.
Qed.

Lemma run_tsteps_ok o meta cite xs : forall s a t,
  rep (R := R) s a -> tx s a t -> calm a -> a VNormal = Null -> NoDup xs ->
  (forall x, In x xs -> a (VStep x) = Null) ->
  (forall x v, In x xs -> leaf x = Some v -> a v = Null) ->
  exists s' a' t' m, run_tsteps l o meta cite xs s = Ok tt s' /\ rep s' a' /\
    stepped_all l o meta cite xs (reg s) t (reg s') t' m /\ tx s' a' t' /\ calm a' /\
    (forall w, (forall x, In x xs -> w <> VStep x /\ leaf x <> Some w) -> a' w = a w) /\
    (forall x, In x xs -> (a' (VStep x) = Null <-> ~ In x m)) /\ incl m xs.
Proof.
  induction xs as [|x xs IH]; intros s a t Hr Ht Hc Hn Nd Hx Hl; cbn [run_tsteps].
  - exists s, a, t, []. repeat (split; [reflexivity||assumption|]). split; [apply sa_nil|].
    repeat (split; [assumption|]). split; [reflexivity|]. split; [intros x []|intros x []].
  - apply NoDup_cons_iff in Nd as [Nx Nd].
    destruct (run_tstep_ok o meta cite x s a t Hr Ht Hc Hn) as (s1 & a1 & t1 & m1 & E1 & Hr1 & S1 & T1 & C1 & O1 & M1).
    { apply Hx. now left. }
    { intros v. apply Hl. now left. }
    assert (LN : forall y, leaf x <> Some (VStep y)) by (intro y; destruct x; discriminate).
    assert (LL : forall y v, In y xs -> leaf y = Some v -> leaf x <> Some v).
    { intros y v Hy H1 H2. assert (x = y); [|subst; contradiction].
      destruct x, y; try discriminate; try reflexivity; simpl in H1, H2; congruence. }
    assert (LV : forall v y, leaf y = Some v -> v <> VStep x) by (intros v y H ->; destruct y; discriminate).
    destruct (IH s1 a1 t1 Hr1 T1 C1) as (s2 & a2 & t2 & m2 & E2 & Hr2 & S2 & T2 & C2 & O2 & M2 & I2).
    { rewrite O1; [assumption|discriminate|destruct x; discriminate]. }
    { assumption. }
    { intros y Hy. rewrite O1; [apply Hx; now right| |apply LN]. intro F. injection F as ->. contradiction. }
    { intros y v Hy Hv. rewrite O1; [apply (Hl y); [now right|assumption]|now apply (LV v y)|now apply (LL y)]. }
    assert (I1 : incl m1 [x]).
    { intros y Hy. destruct m1 as [|z [|? ?]]; [destruct Hy| |destruct M1]. destruct M1 as [-> _]. exact Hy. }
    exists s2, a2, t2, (m1 ++ m2). rewrite (bind_ok _ _ _ _ _ E1).
    split; [exact E2|]. split; [assumption|]. split; [now eapply sa_cons; eauto|].
    split; [assumption|]. split; [assumption|]. split; [|split].
    + intros w Hw. rewrite O2; [|intros y Hy; apply Hw; now right].
      destruct (Hw x (or_introl eq_refl)). now apply O1.
    + intros y Hy. rewrite in_app_iff. destruct (tstep_dec y x) as [->|Hne].
      * rewrite O2. 2:{ intros z Hz. split; [intro F; injection F as ->; contradiction|destruct z; discriminate]. }
        assert (~ In x m2) by (intro F; now apply I2 in F).
        destruct m1 as [|z [|? ?]]; simpl in M1; [|destruct M1 as [-> [c M1]]|destruct M1].
        -- rewrite M1. simpl. tauto.
        -- rewrite M1. simpl. split; [discriminate|]. tauto.
      * destruct Hy as [->|Hy]; [contradiction|]. rewrite (M2 y Hy).
        assert (~ In y m1) by (intro F; apply I1 in F; destruct F as [<-|[]]; contradiction). tauto.
    + intros y Hy. apply in_app_iff in Hy as [Hy|Hy]; [apply I1 in Hy as [<-|[]]; now left|right; now apply I2].
Qed.
End Front.
