(** Proofs about M_Run: the steps on the HTML, wrapping, the end. *)
From Verif Require Import Base BaseL M_Opt M_Run S_Run L_Run L_Run2.

Ltac triv := repeat match goal with
  | |- _ /\ _ => split; [first [reflexivity|assumption|discriminate]|]
  end.
Definition hv (a : view) : option str := match a VHtml with Holds c => Some c | _ => None end.

Section Html.
Context {R : Type} (l : lib R).

Definition same_but (vs : list var) (s s' : st R) (a a' : view) : Prop :=
  forall w, ~ In w vs -> a' w = a w /\ env s' w = env s w.
Lemma same_refl vs s a : same_but vs s s a a.
Proof. intros w _. auto. Qed.
Lemma same_trans vs ws s1 s2 s3 a1 a2 a3 : same_but vs s1 s2 a1 a2 -> same_but ws s2 s3 a2 a3 ->
  incl vs ws -> same_but ws s1 s3 a1 a3.
Proof.
  intros H1 H2 I w Hw. destruct (H2 w Hw) as [E1 E2]. destruct (H1 w (fun F => Hw (I w F))) as [E3 E4].
  split; congruence.
Qed.
Lemma same_more vs ws s s' a a' : same_but vs s s' a a' -> incl vs ws -> same_but ws s s' a a'.
Proof. intros H I w Hw. apply H. intro F. now apply Hw, I. Qed.

Lemma replace_html_ok f s a : rep (R := R) s a -> a VHtml <> Gone -> exists s' a',
  replace_html f s = Ok tt s' /\ rep s' a' /\ reg s' = reg s /\ a' VHtml <> Gone /\
  hv a' = match hv a with Some t => match f (reg s) t with Some t' => Some t' | None => Some t end | None => None end /\
  same_but [VHtml] s s' a a'.
Proof.
  intros Hr Hg. unfold replace_html. rewrite (bind_ok _ _ _ _ _ (owner_ok VHtml s)). unfold hv.
  destruct (a VHtml) as [|h|] eqn:Ea; [| |now elim Hg].
  - rewrite (rep_null _ _ Hr _ Ea). exists s, a. rewrite Ea. triv.
    apply same_refl.
  - destruct (rep_holds _ _ Hr _ _ Ea) as (p & Ep & Lp). rewrite Ep.
    rewrite (bind_ok _ _ _ _ _ (read_ok _ _ _ Lp)). unfold bind at 1. unfold get_reg.
    destruct (f (reg s) h) as [t'|].
    + destruct (swap_ok VHtml t' p h s a Hr Ep Ea) as (s1 & s2 & E1 & E2 & Hr2 & Q2 & T2 & N2 & O2 & L2).
      exists s2, (upd a VHtml (Holds t')). rewrite (bind_ok _ _ _ _ _ E1). split; [exact E2|].
      split; [assumption|]. split; [assumption|]. rewrite upd_eq. split; [discriminate|]. split; [reflexivity|].
      intros w Hw. assert (w <> VHtml) by (intros ->; apply Hw; now left).
      split; [now apply upd_neq|now apply O2].
    + exists s, a. rewrite Ea. triv. apply same_refl.
Qed.

Lemma hwhen_active o meta cite r x : hwhen o meta cite r l x = hactive l o meta cite r x.
Proof.
  unfold hactive, fits. destruct x; cbn [hneeds fst snd forallb any_mode only]; unfold hwhen;
    rewrite ?Bool.andb_true_r, ?Bool.andb_true_l; try reflexivity.
  - destruct (is_on (o EnableDivs)); [|reflexivity]. unfold mode_is. destruct (o Mode); try reflexivity.
    cbn. now rewrite Bool.orb_false_r.
  - apply Bool.andb_comm.
  - unfold mode_is. destruct (o Mode); try reflexivity. cbn. now rewrite Bool.orb_false_r.
  - now rewrite Bool.andb_assoc.
Qed.
Lemma run_hstep_ok o meta cite x s a : rep (R := R) s a -> a VHtml <> Gone ->
  (forall v, In v (huses x) -> a v <> Gone) -> exists s' a',
  run_hstep l o meta cite x s = Ok tt s' /\ rep s' a' /\ reg s' = reg s /\ a' VHtml <> Gone /\
  hv a' = hstepped l o meta cite (reg s) x (hv a) /\ same_but [VHtml] s s' a a'.
Proof.
  intros Hr Hg Hu. unfold run_hstep, hstepped. unfold bind at 1. unfold get_reg. rewrite hwhen_active.
  destruct (hactive l o meta cite (reg s) x).
  - rewrite (bind_ok _ _ _ _ _ (isset_ok VHtml s a Hr)).
    destruct (there (a VHtml)) eqn:Th.
    + rewrite (bind_ok _ _ _ _ _ (touch_all_ok (huses x) s a Hr Hu)).
      now apply replace_html_ok.
    + exists s, a. unfold hv. destruct (a VHtml) eqn:Ea; try discriminate. rewrite <- Ea in *.
      triv. apply same_refl.
  - exists s, a. triv. split; [now destruct (hv a)|apply same_refl].
Qed.

Lemma run_hsteps_ok o meta cite xs : forall s a, rep (R := R) s a -> a VHtml <> Gone ->
  (forall x v, In x xs -> In v (huses x) -> a v <> Gone) -> exists s' a',
  run_hsteps l o meta cite xs s = Ok tt s' /\ rep s' a' /\ reg s' = reg s /\ a' VHtml <> Gone /\
  hv a' = hstepped_all l o meta cite (reg s) xs (hv a) /\ same_but [VHtml] s s' a a'.
Proof.
  induction xs as [|x xs IH]; intros s a Hr Hg Hu; cbn [run_hsteps].
  - exists s, a. triv. apply same_refl.
  - destruct (run_hstep_ok o meta cite x s a Hr Hg) as (s1 & a1 & E1 & Hr1 & Q1 & G1 & V1 & O1).
    { intros v. apply Hu. now left. }
    destruct (IH s1 a1 Hr1 G1) as (s2 & a2 & E2 & Hr2 & Q2 & G2 & V2 & O2).
    { intros y v Hy Hv. destruct (var_dec v VHtml) as [->|Hn]; [assumption|].
      rewrite (proj1 (O1 v ltac:(intros [F|[]]; congruence))). apply (Hu y); [now right|assumption]. }
    exists s2, a2. rewrite (bind_ok _ _ _ _ _ E1). split; [exact E2|]. split; [assumption|].
    split; [congruence|]. split; [assumption|]. split.
    + rewrite V2, Q1, V1. reflexivity.
    + eapply same_trans; [exact O1|exact O2|apply incl_refl].
Qed.

Lemma dup_all_ok vs : forall s a, rep (R := R) s a -> NoDup vs -> (forall v, In v vs -> a v = Null) -> exists s' a',
  dup_all l vs s = Ok tt s' /\ rep s' a' /\ reg s' = reg s /\
  (forall v, In v vs -> there (a' v) = l_has l v (reg s) /\ a' v <> Gone) /\ same_but vs s s' a a'.
Proof.
  induction vs as [|v vs IH]; intros s a Hr Nd Hn; cbn [dup_all].
  - exists s, a. triv. split; [intros v []|apply same_refl].
  - apply NoDup_cons_iff in Nd as [Nv Nd]. unfold bind at 1. unfold get_reg.
    destruct (own_if_ok (l_has l v (reg s)) v s a Hr (Hn v (or_introl eq_refl))) as (s1 & E1 & Hr1 & Q1 & T1 & N1).
    rewrite (bind_ok _ _ _ _ _ E1).
    set (a1 := if l_has l v (reg s) then upd a v (Holds []) else a) in *.
    assert (A1 : forall w, w <> v -> a1 w = a w) by (intros w Hw; unfold a1; destruct (l_has l v (reg s)); [now apply upd_neq|reflexivity]).
    destruct (IH s1 a1 Hr1 Nd) as (s2 & a2 & E2 & Hr2 & Q2 & V2 & O2).
    { intros w Hw. rewrite A1 by (intros ->; contradiction). apply Hn. now right. }
    exists s2, a2. split; [exact E2|]. split; [assumption|]. split; [congruence|]. split.
    + intros w [<-|Hw].
      * rewrite (proj1 (O2 v Nv)). unfold a1. destruct (l_has l v (reg s)) eqn:E.
        -- rewrite upd_eq. split; [reflexivity|discriminate].
        -- rewrite (Hn v) by now left. split; [reflexivity|discriminate].
      * rewrite <- Q1. now apply V2.
    + intros w Hw. destruct (O2 w (fun F => Hw (or_intror F))) as [X1 X2].
      assert (w <> v) by (intros ->; apply Hw; now left).
      rewrite X1, X2. split; [now apply A1|now apply N1].
Qed.

Lemma embed_sheets_ok o ps : forall s a, rep (R := R) s a -> a VHtml <> Gone -> exists s' a',
  embed_sheets l o ps s = Ok tt s' /\ rep s' a' /\ reg s' = reg s /\ a' VHtml <> Gone /\
  hv a' = match hv a with
          | None => None
          | Some t => Some (fold_left (fun t path => match l_sheet l o (reg s) path t with Some t' => t' | None => t end) ps t)
          end /\ same_but [VHtml] s s' a a'.
Proof.
  induction ps as [|p ps IH]; intros s a Hr Hg; cbn [embed_sheets].
  - exists s, a. triv. split; [now destruct (hv a)|apply same_refl].
  - destruct (replace_html_ok (fun r t => l_sheet l o r p t) s a Hr Hg) as (s1 & a1 & E1 & Hr1 & Q1 & G1 & V1 & O1).
    destruct (IH s1 a1 Hr1 G1) as (s2 & a2 & E2 & Hr2 & Q2 & G2 & V2 & O2).
    exists s2, a2. rewrite (bind_ok _ _ _ _ _ E1). split; [exact E2|]. split; [assumption|].
    split; [congruence|]. split; [assumption|]. split.
    + rewrite V2, Q1, V1. destruct (hv a) as [t|]; [|reflexivity]. cbn [fold_left].
      destruct (l_sheet l o (reg s) p t); reflexivity.
    + eapply same_trans; [exact O1|exact O2|apply incl_refl].
Qed.

(** Wrapping the page. *)
Definition wrap_vars := [VHtml; VCssPaths; VFooter; VOut].
Definition no_block (x : vst) : Prop := forall c, x <> Holds c.
Lemma sheets_some o : sheets_given o = true -> exists x, sheet_list o = Some x.
Proof. unfold sheets_given. destruct (sheet_list o); [eauto|discriminate]. Qed.

Lemma wrap_ok o meta cite s a h : rep (R := R) s a -> a VHtml = Holds h ->
  a VCssPaths = Null -> a VFooter = Null -> a VOut = Null ->
  (forall v, In v [VTitle; VCss; VHead; VFoot; VScripts; VLang] -> a v <> Gone) ->
  let css := there (a VCss) in
  (sheet_list o = Some [] /\ css = false -> wrap l o s = Ub FreeForeign) /\
  (sheets_given o = false /\ css = true /\ is_on (o EmbedStylesheet) = true -> wrap l o s = Ub ReadFreed) /\
  (~ (sheet_list o = Some [] /\ css = false) ->
   ~ (sheets_given o = false /\ css = true /\ is_on (o EmbedStylesheet) = true) ->
   exists s' a', wrap l o s = Ok tt s' /\ rep s' a' /\ reg s' = reg s /\
     hv a' = embedded l o (reg s) (hstepped l o meta cite (reg s) HWrap (Some h)) /\ a' VHtml <> Gone /\
     (forall v, In v [VCssPaths; VFooter; VOut] -> no_block (a' v)) /\ same_but wrap_vars s s' a a').
Proof.
  intros Hr Hh Hp Hf Ho Hg css. unfold wrap.
  rewrite (bind_ok _ _ _ _ _ (isset_ok VCss s a Hr)). fold css.
  set (own := (negb (sheets_given o) && css)%bool).
  destruct (own_if_ok own VCssPaths s a Hr Hp) as (s1 & E1 & Hr1 & Q1 & T1 & N1). rewrite (bind_ok _ _ _ _ _ E1).
  set (a1 := if own then upd a VCssPaths (Holds []) else a) in *.
  assert (A1 : forall w, w <> VCssPaths -> a1 w = a w) by (intros w Hw; unfold a1; destruct own; [now apply upd_neq|reflexivity]).
  rewrite (bind_ok _ _ _ _ _ (isset_ok VFoot s1 a1 Hr1)), (bind_ok _ _ _ _ _ (isset_ok VScripts s1 a1 Hr1)).
  set (ft := (there (a1 VFoot) || there (a1 VScripts))%bool). clearbody ft.
  destruct (own_if_ok ft VFooter s1 a1 Hr1) as (s2 & E2 & Hr2 & Q2 & T2 & N2); [now rewrite A1 by discriminate|].
  rewrite (bind_ok _ _ _ _ _ E2).
  set (a2 := if ft then upd a1 VFooter (Holds []) else a1) in *.
  assert (A2 : forall w, w <> VCssPaths -> w <> VFooter -> a2 w = a w).
  { intros w H1 H2. unfold a2. destruct ft; [rewrite upd_neq by assumption|]; now apply A1. }
  assert (P2 : a2 VCssPaths = if own then Holds [] else Null).
  { assert (X : a1 VCssPaths = if own then Holds [] else Null) by (unfold a1; destruct own; [apply upd_eq|assumption]).
    unfold a2. destruct ft; [rewrite upd_neq by discriminate|]; exact X. }
  assert (F2 : a2 VFooter <> Gone).
  { assert (X : a1 VFooter = Null) by (rewrite A1 by discriminate; assumption).
    unfold a2. destruct ft; [rewrite upd_eq; discriminate|congruence]. }
  assert (TG : forall v, In v [VTitle; VCssPaths; VCss; VHead; VFoot; VScripts; VFooter; VLang] -> a2 v <> Gone).
  { intros v Hv. destruct (var_dec v VCssPaths) as [->|H1]; [rewrite P2; destruct own; discriminate|].
    destruct (var_dec v VFooter) as [->|H2]; [exact F2|]. rewrite A2 by assumption. apply Hg.
    simpl in *. intuition congruence. }
  rewrite (bind_ok _ _ _ _ _ (touch_all_ok _ s2 a2 Hr2 TG)).
  rewrite (bind_ok _ _ _ _ _ (owner_ok VHtml s2)). rewrite (bind_ok get_reg _ s2 (reg s2) s2 eq_refl).
  assert (H2 : a2 VHtml = Holds h) by (rewrite A2 by discriminate; assumption).
  destruct (rep_holds _ _ Hr2 VHtml h H2) as (p & Ep & Lp). rewrite Ep.
  assert (Q2' : reg s2 = reg s) by congruence. rewrite Q2'.
  assert (SB2 : same_but wrap_vars s s2 a a2).
  { intros w Hw. simpl in Hw. split; [apply A2; intros ->; tauto|].
    rewrite N2, N1; [reflexivity|..]; intros ->; tauto. }
  clearbody a2. clear Hr1 A1 E1 E2 T1 T2 N1 N2 Q1 Q2 a1 s1.
  (* the new page *)
  assert (W : exists s3 a3 out, (match l_html l HWrap o (reg s) h with
      | Some t' => bind (alloc VOut t') (fun _ => ret true) | None => ret false end) s2 = Ok out s3 /\
      rep s3 a3 /\ reg s3 = reg s2 /\ same_but [VOut] s2 s3 a2 a3 /\
      (match l_html l HWrap o (reg s) h with
       | Some t' => out = true /\ a3 VOut = Holds t' | None => out = false /\ a3 VOut = Null end)).
  { destruct (l_html l HWrap o (reg s) h) as [t'|].
    - destruct (alloc_ok VOut t' s2 a2 Hr2) as (s3 & E3 & Hr3 & Q3 & T3 & N3 & O3 & L3); [now rewrite A2 by discriminate|].
      exists s3, (upd a2 VOut (Holds t')), true. rewrite (bind_ok _ _ _ _ _ E3).
      split; [reflexivity|]. split; [assumption|]. split; [assumption|]. split.
      + intros w Hw. assert (w <> VOut) by (intros ->; apply Hw; now left). split; [now apply upd_neq|now apply O3].
      + split; [reflexivity|apply upd_eq].
    - exists s2, a2, false. triv. split; [apply same_refl|].
      split; [reflexivity|now rewrite A2 by discriminate]. }
  destruct W as (s3 & a3 & out & E3 & Hr3 & Q3 & SB3 & V3).
  assert (P3 : a3 VCssPaths = if own then Holds [] else Null).
  { rewrite (proj1 (SB3 VCssPaths ltac:(notin))). exact P2. }
  assert (Unfold : forall K : unit -> M unit, bind (bind (read p) (fun t => bind (match l_html l HWrap o (reg s) t with
      | Some t' => bind (alloc VOut t') (fun _ => ret true) | None => ret false end)
      (fun out => bind (free_paths o css) (fun _ => if out then bind (release p) (fun _ => move VOut VHtml) else ret tt)))) K s2
     = bind (free_paths o css) (fun _ => bind (if out then bind (release p) (fun _ => move VOut VHtml) else ret tt) K) s3).
  { intro K. unfold bind at 1. rewrite (bind_ok _ _ _ _ _ (read_ok _ _ _ Lp)), (bind_ok _ _ _ _ _ E3).
    unfold bind. destruct (free_paths o css s3); [|reflexivity]. reflexivity. }
  rewrite Unfold.
  assert (FP : forall (foreign : sheet_list o = Some [] /\ css = false), free_paths o css s3 = Ub FreeForeign).
  { intros [F1 F2']. unfold free_paths. rewrite (bind_ok _ _ _ _ _ (isset_ok VCssPaths s3 a3 Hr3)), P3.
    unfold own. rewrite F2', Bool.andb_false_r. cbn [there]. now rewrite F1. }
  split; [intro F; now rewrite (bind_ub _ _ _ _ (FP F))|].
  assert (Step : ~ (sheet_list o = Some [] /\ css = false) ->
    exists s6 a6, (bind (free_paths o css) (fun _ => bind (if out then bind (release p) (fun _ => move VOut VHtml) else ret tt)
        (fun _ => free VFooter))) s3 = Ok tt s6 /\ rep s6 a6 /\ reg s6 = reg s /\
      hv a6 = hstepped l o meta cite (reg s) HWrap (Some h) /\ a6 VHtml <> Gone /\
      a6 VCssPaths = (if own then Gone else Null) /\ no_block (a6 VFooter) /\ no_block (a6 VOut) /\
      same_but wrap_vars s s6 a a6).
  { intro NF.
    assert (X4 : exists s4 a4, free_paths o css s3 = Ok tt s4 /\ rep s4 a4 /\ reg s4 = reg s3 /\
        a4 VCssPaths = (if own then Gone else Null) /\ same_but [VCssPaths] s3 s4 a3 a4).
    { unfold free_paths. rewrite (bind_ok _ _ _ _ _ (isset_ok VCssPaths s3 a3 Hr3)), P3.
      destruct own eqn:Eo; cbn [there].
      - destruct (free_ok VCssPaths s3 a3 Hr3) as (s4 & E4 & Hr4 & Q4 & T4 & N4); [congruence|].
        exists s4, (upd a3 VCssPaths (kill (a3 VCssPaths))). split; [exact E4|]. split; [assumption|].
        split; [assumption|]. split; [rewrite upd_eq, P3; reflexivity|].
        intros w Hw. split; [apply upd_neq; intros ->; apply Hw; now left|apply N4].
      - exists s3, a3. split.
        { destruct (sheet_list o) as [[|? ?]|]; try reflexivity. destruct css; [reflexivity|]. elim NF. auto. }
        triv. apply same_refl. }
    destruct X4 as (s4 & a4 & E4 & Hr4 & Q4 & P4 & SB4). rewrite (bind_ok _ _ _ _ _ E4).
    assert (X5 : exists s5 a5, (if out then bind (release p) (fun _ => move VOut VHtml) else ret tt) s4 = Ok tt s5 /\
        rep s5 a5 /\ reg s5 = reg s4 /\ hv a5 = hstepped l o meta cite (reg s) HWrap (Some h) /\ a5 VHtml <> Gone /\
        no_block (a5 VOut) /\ same_but [VOut; VHtml] s4 s5 a4 a5).
    { unfold hstepped, hactive. cbn [fits hneeds fst snd forallb any_mode andb].
      assert (N3h : ~ In VHtml [VOut]) by notin.
      assert (N4h : ~ In VHtml [VCssPaths]) by notin.
      assert (N4o : ~ In VOut [VCssPaths]) by notin.
      assert (H4 : a4 VHtml = Holds h) by (rewrite (proj1 (SB4 _ N4h)), (proj1 (SB3 _ N3h)); assumption).
      assert (Ep4 : env s4 VHtml = Some p) by (rewrite (proj2 (SB4 _ N4h)), (proj2 (SB3 _ N3h)); assumption).
      pose proof (proj1 (SB4 _ N4o)) as O4.
      destruct (l_html l HWrap o (reg s) h) as [t'|]; destruct V3 as [-> V3].
      - destruct (release_ok VHtml p s4 a4 Hr4 Ep4) as (s5 & E5 & Hr5 & Q5 & T5 & N5); [congruence|].
        rewrite (bind_ok _ _ _ _ _ E5).
        destruct (move_ok VOut VHtml t' s5 _ Hr5) as (s6 & E6 & Hr6 & Q6 & T6 & N6 & O6).
        { discriminate. } { rewrite upd_neq by discriminate. congruence. } { apply upd_eq. }
        eexists s6, _. split; [exact E6|]. split; [exact Hr6|]. split; [congruence|].
        split; [unfold hv; now rewrite upd_eq|]. split; [rewrite upd_eq; discriminate|]. split.
        { rewrite upd_neq by discriminate. rewrite upd_eq. discriminate. }
        intros w Hw. assert (w <> VOut) by (intros ->; apply Hw; now left).
        assert (w <> VHtml) by (intros ->; apply Hw; right; now left). rewrite !upd_neq by assumption.
        split; [reflexivity|]. rewrite O6 by assumption. apply N5.
      - exists s4, a4. split; [reflexivity|]. split; [assumption|]. split; [reflexivity|].
        split; [unfold hv; now rewrite H4|]. split; [congruence|]. split; [intros c; congruence|]. apply same_refl. }
    destruct X5 as (s5 & a5 & E5 & Hr5 & Q5 & V5 & G5 & NB5 & SB5). rewrite (bind_ok _ _ _ _ _ E5).
    assert (FF : a5 VFooter <> Gone).
    { rewrite (proj1 (SB5 VFooter ltac:(notin))), (proj1 (SB4 VFooter ltac:(notin))),
        (proj1 (SB3 VFooter ltac:(notin))). exact F2. }
    destruct (free_ok VFooter s5 a5 Hr5 FF) as (s6 & E6 & Hr6 & Q6 & T6 & N6).
    eexists s6, _. split; [exact E6|]. split; [exact Hr6|]. split; [congruence|].
    split; [unfold hv; rewrite upd_neq by discriminate; exact V5|].
    split; [now rewrite upd_neq by discriminate|]. split.
    { rewrite upd_neq by discriminate. rewrite (proj1 (SB5 VCssPaths ltac:(notin))). exact P4. }
    split; [rewrite upd_eq; intros c; destruct (a5 VFooter); discriminate|].
    split; [now rewrite upd_neq by discriminate|].
    intros w Hw. simpl in Hw. destruct (SB2 w) as [X1 X2]; [simpl; tauto|].
    destruct (SB3 w) as [X3 X4]; [simpl; tauto|]. destruct (SB4 w) as [X5 X6]; [simpl; tauto|].
    destruct (SB5 w) as [X7 X8]; [simpl; tauto|].
    rewrite upd_neq by (intros ->; tauto). rewrite N6. split; congruence. }
  assert (Assoc : forall K : unit -> M unit, ~ (sheet_list o = Some [] /\ css = false) -> forall s6,
    (bind (free_paths o css) (fun _ => bind (if out then bind (release p) (fun _ => move VOut VHtml) else ret tt)
        (fun _ => free VFooter))) s3 = Ok tt s6 ->
    bind (free_paths o css) (fun _ => bind (if out then bind (release p) (fun _ => move VOut VHtml) else ret tt)
        (fun _ => bind (free VFooter) K)) s3 = K tt s6).
  { intros K _ s6. unfold bind at 1 4. destruct (free_paths o css s3) as [u s4|]; [|discriminate].
    unfold bind at 1 3. destruct ((if out then bind (release p) (fun _ => move VOut VHtml) else ret tt) s4) as [u' s5|]; [|discriminate].
    intro H. now rewrite (bind_ok _ _ _ _ _ H). }
  split.
  - intros (F1 & F2' & F3). destruct Step as (s6 & a6 & E6 & Hr6 & _ & _ & _ & P6 & _).
    { intros [_ F]. congruence. }
    rewrite (Assoc _ ltac:(intros [_ F]; congruence) s6 E6). rewrite F3.
    rewrite (bind_ok _ _ _ _ _ (isset_ok VCssPaths s6 a6 Hr6)), P6.
    unfold own in *. rewrite F1, F2' in P6 |- *. cbn [negb andb there] in *. now apply (touch_gone _ s6 a6).
  - intros NF NE. destruct (Step NF) as (s6 & a6 & E6 & Hr6 & Q6 & V6 & G6 & P6 & NB1 & NB2 & SB6).
    rewrite (Assoc _ NF s6 E6). unfold embedded.
    assert (NBs : forall v, In v [VCssPaths; VFooter; VOut] -> no_block (a6 v)).
    { intros v [<-|[<-|[<-|[]]]]; [rewrite P6; destruct own; discriminate|assumption|assumption]. }
    destruct (is_on (o EmbedStylesheet)) eqn:Em.
    + rewrite (bind_ok _ _ _ _ _ (isset_ok VCssPaths s6 a6 Hr6)), P6.
      assert (Eo : own = false).
      { unfold own. destruct (sheets_given o), css; try reflexivity. elim NE. auto. }
      rewrite Eo. cbn [there andb]. destruct (sheets_given o) eqn:Sg.
      * destruct (sheets_some o Sg) as (x & Ex). rewrite Ex.
        destruct (embed_sheets_ok o (rev (firstn (sheet_count o) x)) s6 a6 Hr6 G6)
          as (s7 & a7 & E7 & Hr7 & Q7 & G7 & V7 & SB7).
        exists s7, a7. split; [exact E7|]. split; [assumption|]. split; [congruence|].
        split; [rewrite V7, Q6, V6; reflexivity|]. split; [assumption|]. split.
        { intros v Hv. rewrite (proj1 (SB7 v ltac:(disin Hv))). now apply NBs. }
        eapply same_trans; [apply (same_more wrap_vars wrap_vars _ _ _ _ SB6); apply incl_refl|
          apply (same_more [VHtml] wrap_vars _ _ _ _ SB7); intros w [<-|[]]; now left|apply incl_refl].
      * exists s6, a6. triv. assumption.
    + exists s6, a6. triv. assumption.
Qed.
End Html.
