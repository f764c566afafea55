(** Proofs about M_Run: the start, and the text for the parser. *)
From Verif Require Import Base BaseL M_Opt M_Run S_Run L_Run L_Run2.

Section Front.
Context {R : Type} (l : lib R).

Definition blank : view := fun _ => Null.
Lemma start_ok : rep (start l) blank.
Proof. split; cbn [start env live fresh blank]; try discriminate; auto. intros p H. now elim H. Qed.

Lemma there_if (b : bool) c : there (if b then Holds c else Null) = b.
Proof. now destruct b. Qed.

(** The text is in the working copy. *)
Definition wt (s : st R) (a : view) (t : str) : Prop := env s VWorking = Some (txt s) /\ a VWorking = Holds t.
Lemma wt_tx s a t : wt s a t -> tx s a t.
Proof. intros [H1 H2]. now exists VWorking. Qed.

Lemma take_out_ok f v s a t b r' t' :
  rep (R := R) s a -> wt s a t -> calm a -> a v = Null -> v <> VWorking -> f (reg s) t = (b, r', t') ->
  exists s' a', take_out f v s = Ok tt s' /\ rep s' a' /\ reg s' = r' /\ wt s' a' t' /\ calm a' /\
    there (a' v) = b /\ (forall w, w <> v -> w <> VWorking -> a' w = a w).
Proof.
  intros Hr Ht Hc Hv Hn Hf. unfold take_out.
  unfold bind at 1. unfold text_ptr. rewrite (bind_ok _ _ _ _ _ (tx_read s a t Hr (wt_tx _ _ _ Ht))).
  unfold bind at 1. unfold get_reg. rewrite Hf.
  destruct (set_reg_ok r' s a Hr) as (s1 & E1 & Hr1 & Q1 & T1 & N1). rewrite (bind_ok _ _ _ _ _ E1).
  destruct Ht as [Ht1 Ht2].
  destruct (store_ok VWorking (txt s) t' s1 a Hr1) as (s2 & E2 & Hr2 & Q2 & T2 & N2).
  { now rewrite N1. } { eauto. }
  rewrite (bind_ok _ _ _ _ _ E2).
  destruct (own_if_ok b v s2 _ Hr2) as (s3 & E3 & Hr3 & Q3 & T3 & N3).
  { rewrite upd_neq; assumption. }
  eexists s3, _. split; [exact E3|]. split; [exact Hr3|]. split; [congruence|]. split; [|split; [|split]].
  - split.
    + rewrite N3 by congruence. rewrite N2, N1, T3, T2, T1. exact Ht1.
    + destruct b; [rewrite upd_neq by congruence|]; apply upd_eq.
  - apply calm_if. now apply calm_upd.
  - destruct b; [now rewrite upd_eq|]. rewrite upd_neq by assumption. now rewrite Hv.
  - intros w H1 H2. destruct b; rewrite ?(upd_neq _ v) by assumption; now rewrite upd_neq.
Qed.

Definition early : list var := [VWorking; VManager; VMeta; VAlds; VAbbr].
Lemma prepare_ok o text : exists s a meta alds t,
  prepare l o text (start l) = Ok tt s /\ rep s a /\ taken l o (plugged l o text) meta alds (reg s) t /\
  wt s a t /\ calm a /\ there (a VMeta) = meta /\ there (a VAlds) = alds /\
  there (a VManager) = manager l o /\ (forall w, ~ In w early -> a w = Null).
Proof.
  unfold prepare.
  destruct (alloc_ok VWorking text (start l) blank start_ok eq_refl) as (s1 & E1 & Hr1 & Q1 & T1 & N1 & O1 & L1).
  rewrite (bind_ok _ _ _ _ _ E1). fold (manager l o).
  destruct (own_if_ok (manager l o) VManager s1 _ Hr1) as (s2 & E2 & Hr2 & Q2 & T2 & N2).
  { now rewrite upd_neq by discriminate. }
  rewrite (bind_ok _ _ _ _ _ E2).
  set (a1 := upd blank VWorking (Holds text)) in *.
  set (a2 := if manager l o then upd a1 VManager (Holds []) else a1) in *.
  rewrite (bind_ok _ _ _ _ _ (isset_ok VManager s2 a2 Hr2)).
  assert (M2 : there (a2 VManager) = manager l o) by (unfold a2, a1; now destruct (manager l o)).
  assert (W2 : a2 VWorking = Holds text) by (unfold a2, a1; now destruct (manager l o)).
  assert (C2 : calm a2) by (apply calm_if, calm_upd; discriminate).
  assert (F2 : forall w, ~ In w early -> a2 w = Null).
  { intros w Hw. unfold a2, a1. assert (w <> VWorking) by (intros ->; apply Hw; now left).
    assert (w <> VManager) by (intros ->; apply Hw; right; now left).
    destruct (manager l o); rewrite ?upd_neq by assumption; reflexivity. }
  assert (G2 : a2 VMeta = Null /\ a2 VAlds = Null /\ a2 VAbbr = Null) by (unfold a2, a1; now destruct (manager l o)).
  rewrite M2.
  assert (EW : env s2 VWorking = Some (fresh (start l))) by (rewrite N2 by discriminate; exact N1).
  destruct (rep_holds _ _ Hr2 VWorking text W2) as (p & Ep & Lp).
  assert (p = fresh (start l)) by congruence. subst p.
  rewrite (bind_ok _ _ _ _ _ (read_ok _ _ _ Lp)).
  (* plugins *)
  assert (P : exists s3 a3, (match (if manager l o then l_pre l o text else None) with
       | Some t' => bind (alloc VWorking t') (fun q => bind (release (fresh (start l))) (fun _ => set_text q))
       | None => set_text (fresh (start l)) end) s2 = Ok tt s3 /\ rep s3 a3 /\ wt s3 a3 (plugged l o text) /\
       calm a3 /\ there (a3 VManager) = manager l o /\ reg s3 = l_start l /\ (forall w, w <> VWorking -> a3 w = a2 w)).
  { unfold plugged. fold (manager l o).
    assert (P0 : exists s3 a3, set_text (fresh (start l)) s2 = Ok tt s3 /\ rep s3 a3 /\ wt s3 a3 text /\
       calm a3 /\ there (a3 VManager) = manager l o /\ reg s3 = l_start l /\ (forall w, w <> VWorking -> a3 w = a2 w)).
    { destruct (set_text_ok (fresh (start l)) s2 a2 Hr2) as (s3 & E3 & Hr3 & Q3 & T3 & N3).
      exists s3, a2. split; [exact E3|]. split; [assumption|]. split; [split; congruence|].
      split; [assumption|]. split; [assumption|]. split; [rewrite Q3, Q2, Q1; reflexivity|reflexivity]. }
    destruct (manager l o) eqn:Mg; [|exact P0]. destruct (l_pre l o text) as [t'|]; [|exact P0].
    destruct (swap_ok VWorking t' _ text s2 a2 Hr2 EW W2) as (s3 & s4 & E3 & E4 & Hr4 & Q4 & T4 & N4 & O4 & L4).
    destruct (set_text_ok (fresh s2) s4 _ Hr4) as (s5 & E5 & Hr5 & Q5 & T5 & N5).
    exists s5, (upd a2 VWorking (Holds t')). rewrite (bind_ok _ _ _ _ _ E3), (bind_ok _ _ _ _ _ E4).
    split; [exact E5|]. split; [assumption|]. split; [split; [congruence|apply upd_eq]|].
    split; [now apply calm_upd|]. split; [now rewrite upd_neq by discriminate|].
    split; [rewrite Q5, Q4, Q2, Q1; reflexivity|]. intros w Hw. now apply upd_neq. }
  destruct P as (s3 & a3 & E3 & Hr3 & W3 & C3 & M3 & Q3 & O3). rewrite (bind_ok _ _ _ _ _ E3).
  set (t0 := plugged l o text) in *. clearbody t0.
  destruct G2 as (G1 & G2 & G3).
  assert (A1 : a3 VMeta = Null) by (rewrite O3 by discriminate; assumption).
  assert (A2 : a3 VAlds = Null) by (rewrite O3 by discriminate; assumption).
  assert (A3 : a3 VAbbr = Null) by (rewrite O3 by discriminate; assumption).
  assert (A4 : forall w, ~ In w early -> a3 w = Null).
  { intros w Hw. rewrite O3; [now apply F2|]. intros ->. apply Hw. now left. }
  destruct (mmd_like o) eqn:Mm.
  2:{ exists s3, a3, false, false, t0. split; [reflexivity|]. split; [assumption|]. split.
      - rewrite Q3. apply t_none. intro H. apply mmd_in in H. congruence.
      - rewrite A1, A2. auto 8. }
  destruct (l_meta l t0) as [[b r] t1] eqn:Lm.
  destruct (take_out_ok (fun _ t => l_meta l t) VMeta s3 a3 t0 b r t1 Hr3 W3 C3 A1) as (s4 & a4 & E4 & Hr4 & Q4 & W4 & C4 & B4 & O4); [discriminate|exact Lm|].
  rewrite (bind_ok _ _ _ _ _ E4).
  destruct (kramdown_like o) eqn:Kr.
  - destruct (l_alds l r t1) as [[b1 r1] t1'] eqn:La.
    destruct (take_out_ok (l_alds l) VAlds s4 a4 t1 b1 r1 t1' Hr4 W4 C4) as (s5 & a5 & E5 & Hr5 & Q5 & W5 & C5 & B5 & O5).
    { rewrite O4 by discriminate. assumption. } { discriminate. } { now rewrite Q4. }
    rewrite (bind_ok _ _ _ _ _ E5).
    destruct (l_abbr l r1 t1') as [[b2 r2] t2] eqn:Lb.
    destruct (take_out_ok (l_abbr l) VAbbr s5 a5 t1' b2 r2 t2 Hr5 W5 C5) as (s6 & a6 & E6 & Hr6 & Q6 & W6 & C6 & B6 & O6).
    { rewrite O5, O4 by discriminate. assumption. } { discriminate. } { now rewrite Q5. }
    exists s6, a6, b, b1, t2. split; [exact E6|]. split; [assumption|]. split.
    { rewrite Q6. apply (t_ald l o t0 b r t1 b1 r1 t1' b2 r2 t2); [now apply kramdown_in|assumption..]. }
    split; [assumption|]. split; [assumption|]. split; [now rewrite O6, O5 by discriminate|].
    split; [now rewrite O6 by discriminate|]. split; [now rewrite O6, O5, O4 by discriminate|].
    intros w Hw. rewrite O6, O5, O4 by (intros ->; apply Hw; simpl; auto 10). now apply A4.
  - rewrite (bind_ok (ret tt) _ s4 tt s4 eq_refl).
    destruct (l_abbr l r t1) as [[b2 r2] t2] eqn:Lb.
    destruct (take_out_ok (l_abbr l) VAbbr s4 a4 t1 b2 r2 t2 Hr4 W4 C4) as (s6 & a6 & E6 & Hr6 & Q6 & W6 & C6 & B6 & O6).
    { rewrite O4 by discriminate. assumption. } { discriminate. } { now rewrite Q4. }
    exists s6, a6, b, false, t2. split; [exact E6|]. split; [assumption|]. split.
    { rewrite Q6. apply (t_mmd l o t0 b r t1 b2 r2 t2); [|assumption..].
      apply mmd_in in Mm. destruct Mm as (m & Em & Hm). exists m. split; [assumption|].
      destruct Hm as [<-|Hm]; [now left|]. exfalso.
      assert (X : kramdown_like o = true) by (apply kramdown_in; exists m; auto). congruence. }
    split; [assumption|]. split; [assumption|]. split; [now rewrite O6 by discriminate|].
    split; [rewrite O6, O4 by discriminate; now rewrite A2|]. split; [now rewrite O6, O4 by discriminate|].
    intros w Hw. rewrite O6, O4 by (intros ->; apply Hw; simpl; auto 10). now apply A4.
Qed.

Lemma normalize_ok s a t : rep (R := R) s a -> tx s a t -> a VFinal = Null -> calm a -> exists s' a' fed,
  normalize s = Ok fed s' /\ rep s' a' /\ reg s' = reg s /\ closes t fed /\ tx s' a' fed /\ calm a' /\
  (open_line t -> env s' VFinal = Some (txt s') /\ a' VFinal = Holds fed) /\
  (~ open_line t -> a' VFinal = Null) /\ (forall w, w <> VFinal -> a' w = a w).
Proof.
  intros Hr Ht Hf Hc. unfold normalize. unfold bind at 1. unfold text_ptr at 1.
  rewrite (bind_ok _ _ _ _ _ (tx_read s a t Hr Ht)).
  assert (G : forall c, closes t c -> open_line t -> exists s' a' fed,
    bind (bind (alloc VFinal c) (fun n => set_text n)) (fun _ => bind text_ptr (fun q => read q)) s = Ok fed s' /\
    rep s' a' /\ reg s' = reg s /\ closes t fed /\ tx s' a' fed /\ calm a' /\
    (open_line t -> env s' VFinal = Some (txt s') /\ a' VFinal = Holds fed) /\
    (~ open_line t -> a' VFinal = Null) /\ (forall w, w <> VFinal -> a' w = a w)).
  { intros c Hcl Hol. destruct (alloc_ok VFinal c s a Hr Hf) as (s1 & E1 & Hr1 & Q1 & T1 & N1 & O1 & L1).
    destruct (set_text_ok (fresh s) s1 _ Hr1) as (s2 & E2 & Hr2 & Q2 & T2 & N2).
    unfold bind at 1. rewrite (bind_ok _ _ _ _ _ E1), E2.
    assert (X : tx s2 (upd a VFinal (Holds c)) c) by (exists VFinal; split; [congruence|apply upd_eq]).
    unfold bind at 1. unfold text_ptr.
    exists s2, (upd a VFinal (Holds c)), c. rewrite (tx_read _ _ _ Hr2 X).
    repeat (split; [reflexivity||assumption||congruence|]). split; [now apply calm_upd|].
    split; [intros _; split; [congruence|apply upd_eq]|]. split; [intro F; contradiction|].
    intros w Hw. now apply upd_neq. }
  destruct t as [|x t].
  - apply G; [apply c_empty|now left].
  - pose proof (closes_fun (x :: t)) as Cl. destruct (no_line_end (x :: t)) eqn:E.
    + apply G; [apply Cl; discriminate|]. apply open_line_fun. now right.
    + rewrite (bind_ok (ret tt) _ s tt s eq_refl).
      unfold bind at 1. unfold text_ptr. rewrite (tx_read _ _ _ Hr Ht).
      exists s, a, (x :: t). repeat (split; [reflexivity||assumption|]).
      split; [apply Cl; discriminate|]. split; [assumption|]. split; [assumption|].
      split; [|split; [intros _; assumption|reflexivity]].
      intro F. apply open_line_fun in F as [F|F]; [discriminate|congruence].
Qed.

(** The variables that are not used in front of the parser. *)
Definition late : list var :=
  [VNormal; VParser; VDoc; VHtml; VCss; VHead; VFoot; VLang; VQuotes; VScripts; VTitle; VCssPaths;
   VFooter; VOut].

Record ready o text s a o' meta alds cite t m fed : Prop := Ready {
  rd_run : front l o text (start l) = Ok (o', meta, cite, fed) s;
  rd_rep : rep s a;
  rd_pre : preprocessed l o text o' meta alds cite (reg s) t m;
  rd_closes : closes t fed;
  rd_tx : tx s a fed;
  rd_calm : calm a;
  rd_open : open_line t -> env s VFinal = Some (txt s) /\ a VFinal = Holds fed;
  rd_closed : ~ open_line t -> a VFinal = Null;
  rd_late : forall w, In w late -> a w = Null;
  rd_made : forall x, a (VStep x) = Null <-> ~ In x m;
  rd_meta : there (a VMeta) = meta;
  rd_alds : there (a VAlds) = alds;
  rd_manager : there (a VManager) = manager l o }.

Lemma order_nodup : NoDup order.
Proof.
  unfold order. repeat (apply NoDup_cons; [simpl; intuition discriminate|]). apply NoDup_nil.
Qed.
Lemma in_order x : In x order <-> x <> TMetaVars.
Proof. unfold order. split; [intros H ->; simpl in H; intuition discriminate|]. destruct x; simpl; intuition. Qed.

Lemma front_ok o text : exists s a o' meta alds cite t m fed, ready o text s a o' meta alds cite t m fed.
Proof.
  destruct (prepare_ok o text) as (s0 & a0 & meta & alds & t0 & E0 & Hr0 & K0 & W0 & C0 & Me0 & Al0 & Mg0 & F0).
  assert (FW : forall w, ~ In w early -> a0 w = Null) by exact F0.
  set (o' := with_cites l o meta (reg s0)).
  destruct (run_tstep_ok l o' meta false TMetaVars s0 a0 t0 Hr0 (wt_tx _ _ _ W0) C0)
    as (s1 & a1 & t1 & m1 & E1 & Hr1 & S1 & T1 & C1 & O1 & M1).
  { apply F0. simpl. intuition discriminate. }
  { apply F0. simpl. intuition discriminate. }
  { discriminate. }
  assert (O1' : forall w, w <> VStep TMetaVars -> a1 w = a0 w) by (intros w Hw; apply O1; [assumption|discriminate]).
  destruct (l_bib l o' (reg s1)) as [bib r2] eqn:Lb.
  destruct (set_reg_ok r2 s1 a1 Hr1) as (s2 & E2 & Hr2 & Q2 & Tx2 & N2).
  destruct (own_if_ok bib VBib s2 a1 Hr2) as (s3 & E3 & Hr3 & Q3 & Tx3 & N3).
  { rewrite O1' by discriminate. apply F0. simpl. intuition discriminate. }
  set (a3 := if bib then upd a1 VBib (Holds []) else a1) in *.
  assert (A3 : forall w, w <> VBib -> a3 w = a1 w) by (intros w Hw; unfold a3; destruct bib; [now apply upd_neq|reflexivity]).
  assert (X3 : tx s3 a3 t1).
  { destruct T1 as (v & Ev & Av). assert (v <> VBib).
    { intros ->. rewrite O1' in Av by discriminate. rewrite F0 in Av; [discriminate|]. simpl. intuition discriminate. }
    exists v. split; [rewrite N3 by assumption; congruence|rewrite A3; assumption]. }
  set (cite := cites l o' bib meta r2).
  destruct (run_tsteps_ok l o' meta cite order s3 a3 t1 Hr3 X3) as (s4 & a4 & t4 & m4 & E4 & Hr4 & S4 & T4 & C4 & O4 & M4 & I4).
  { now apply calm_if. }
  { rewrite A3, O1' by discriminate. apply F0. simpl. intuition discriminate. }
  { apply order_nodup. }
  { intros x Hx. rewrite A3, O1'; try discriminate.
    - apply F0. simpl. intuition discriminate.
    - intro F. injection F as ->. now apply in_order in Hx. }
  { intros x v Hx Hv. rewrite A3, O1'; try (intros ->; destruct x; discriminate).
    apply F0. intro F. destruct x; try discriminate; injection Hv as <-; simpl in F; intuition discriminate. }
  assert (O4' : forall w, (forall x, w <> VStep x) -> ~ In w [VIndex; VImg; VLiquidTags] -> a4 w = a3 w).
  { intros w H1 H2. apply O4. intros x _. split; [apply H1|]. intro F. apply H2.
    destruct x; try discriminate; injection F as <-; simpl; auto. }
  assert (LN : forall w x, ~ In w [VIndex; VImg; VLiquidTags] -> leaf x <> Some w).
  { intros w x H F. apply H. destruct x; try discriminate; injection F as <-; simpl; auto. }
  assert (AF : forall w, (forall x, w <> VStep x) -> ~ In w (VBib :: VIndex :: VImg :: VLiquidTags :: early) -> a4 w = Null).
  { intros w H1 H2. rewrite O4'; [|assumption|intro F; apply H2; simpl in *; tauto].
    rewrite A3 by (intros ->; apply H2; now left). rewrite O1' by apply H1. apply F0. intro F. apply H2. simpl in *. tauto. }
  destruct (normalize_ok s4 a4 t4 Hr4 T4) as (s5 & a5 & fed & E5 & Hr5 & Q5 & Cl5 & T5 & C5 & Op5 & Cn5 & O5).
  { apply AF; [discriminate|]. simpl. intuition discriminate. }
  { assumption. }
  exists s5, a5, o', meta, alds, cite, t4, (m1 ++ m4), fed. split.
  - unfold front. rewrite (bind_ok _ _ _ _ _ E0).
    rewrite (bind_ok _ _ _ _ _ (isset_ok VMeta s0 a0 Hr0)).
    rewrite (bind_ok _ _ _ _ _ (touch_ok VMeta s0 a0 Hr0 (C0 VMeta))).
    unfold bind at 1. unfold get_reg at 1. rewrite Me0. fold (with_cites l o meta (reg s0)). fold o'.
    rewrite (bind_ok _ _ _ _ _ E1).
    rewrite (bind_ok _ _ _ _ _ (touch_ok VMeta s1 a1 Hr1 (C1 VMeta))).
    unfold bind at 1. unfold get_reg at 1. rewrite Lb.
    rewrite (bind_ok _ _ _ _ _ E2), (bind_ok _ _ _ _ _ E3).
    change (bind (run_tsteps l o' meta cite order) (fun _ => bind normalize (fun fed => ret (o', meta, cite, fed))) s3
            = Ok (o', meta, cite, fed) s5).
    rewrite (bind_ok _ _ _ _ _ E4), (bind_ok _ _ _ _ _ E5). reflexivity.
  - assumption.
  - rewrite Q5. apply (pre_intro l o text meta alds (reg s0) t0 (reg s1) t1 m1 bib r2 (reg s4) t4 m4);
      [exact K0|exact S1|exact Lb|]. rewrite Q3, Q2 in S4. exact S4.
  - assumption.
  - assumption.
  - assumption.
  - assumption.
  - assumption.
  - intros w Hw. rewrite O5 by (intros ->; simpl in Hw; intuition discriminate).
    apply AF; [intros x ->|]; simpl in *; intuition (subst; discriminate).
  - intro x. rewrite O5 by discriminate. destruct (tstep_dec x TMetaVars) as [->|Hx].
    + rewrite O4. 2:{ intros y Hy. split; [intro F; injection F as <-; now apply in_order in Hy|destruct y; discriminate]. }
      rewrite A3 by discriminate. rewrite in_app_iff.
      assert (~ In TMetaVars m4) by (intro F; apply I4 in F; now apply in_order in F).
      destruct m1 as [|z [|? ?]]; simpl in M1; [|destruct M1 as [-> [c M1]]|destruct M1]; rewrite M1; simpl.
      * tauto.
      * split; [discriminate|tauto].
    + apply in_order in Hx. rewrite (M4 x Hx), in_app_iff.
      assert (~ In x m1); [|tauto]. intro F. apply in_order in Hx.
      destruct m1 as [|z [|? ?]]; simpl in M1; [destruct F| |destruct M1]. destruct M1 as [-> _], F as [F|[]]. congruence.
  - rewrite O5, O4', A3, O1' by (discriminate || notin). assumption.
  - rewrite O5, O4', A3, O1' by (discriminate || notin). assumption.
  - rewrite O5, O4', A3, O1' by (discriminate || notin). assumption.
Qed.
End Front.
