(** Proofs about M_Run: the whole conversion. *)
From Verif Require Import Base BaseL M_Opt M_Run S_Run L_Run L_Run2 L_Run3 L_Run4.

Section End_.
Context {R : Type} (l : lib R).

Lemma cleanup_nodup : NoDup cleanup.
Proof. unfold cleanup. repeat (apply NoDup_cons; [simpl; intuition discriminate|]). apply NoDup_nil. Qed.

Lemma has_scripts_any o : has_scripts o = any_script o.
Proof.
  unfold has_scripts, any_script. destruct (o ScriptTags) as [| | |[x|]]; try reflexivity.
  induction x as [|[|c s] x IH]; simpl; [reflexivity|exact IH|reflexivity].
Qed.
Lemma hstepped_none o meta cite r x h : hstepped l o meta cite r x h = None <-> h = None.
Proof.
  unfold hstepped. destruct h as [t|]; [|tauto].
  destruct (hactive l o meta cite r x); [destruct (l_html l x o r t)|]; split; discriminate.
Qed.
Lemma hstepped_all_none o meta cite r xs : forall h, hstepped_all l o meta cite r xs h = None <-> h = None.
Proof.
  unfold hstepped_all. induction xs as [|x xs IH]; intro h; cbn [fold_left]; [tauto|].
  rewrite IH. apply hstepped_none.
Qed.
Lemma hstepped_all_app o meta cite r xs ys h :
  hstepped_all l o meta cite r (xs ++ ys) h = hstepped_all l o meta cite r ys (hstepped_all l o meta cite r xs h).
Proof. apply fold_left_app. Qed.
Lemma hv_none a : a VHtml <> Gone -> (hv a = None <-> a VHtml = Null).
Proof. unfold hv. destruct (a VHtml); intuition (discriminate || congruence). Qed.
Lemma hv_some a h : hv a = Some h -> a VHtml = Holds h.
Proof. unfold hv. destruct (a VHtml); intro H; try discriminate. now injection H as ->. Qed.

(** From the cleanup on. *)
Definition settled : list var :=
  cleanup ++ [VManager; VScripts; VCss; VHead; VFoot; VLang; VQuotes; VTitle; VCssPaths; VFooter; VOut].
Definition tail_of o (plug meta cite : bool) r (h : option str) : option str :=
  let h2 := if plug then hstepped l o meta cite r HPlugins h else h in
  let h3 := if is_on (o Standalone) then embedded l o r (hstepped l o meta cite r HWrap h2)
            else if has_scripts o then hstepped l o meta cite r HScripts h2 else h2 in
  hstepped_all l o meta cite r last_order h3.

Lemma finish_ok o plug meta cite s a : rep (R := R) s a -> a VHtml <> Gone ->
  (forall v, In v cleanup -> a v <> Gone) -> a VManager <> Gone -> there (a VManager) = plug ->
  (forall v, In v [VScripts; VTitle; VCssPaths; VFooter; VOut] -> a v = Null) ->
  (forall v, In v [VCss; VHead; VFoot; VLang; VQuotes] -> a v <> Gone) ->
  let css := there (a VCss) in
  let wrapped := hv a <> None /\ is_on (o Standalone) = true in
  let foreign := wrapped /\ sheet_list o = Some [] /\ css = false in
  let freed := wrapped /\ sheets_given o = false /\ css = true /\ is_on (o EmbedStylesheet) = true in
  (foreign -> finish l o meta cite s = Ub FreeForeign) /\
  (freed -> finish l o meta cite s = Ub ReadFreed) /\
  (~ foreign -> ~ freed -> exists s' a', finish l o meta cite s = Ok (env s' VHtml) s' /\ rep s' a' /\
     reg s' = reg s /\ hv a' = tail_of o plug meta cite (reg s) (hv a) /\ a' VHtml <> Gone /\
     (forall w, In w settled -> no_block (a' w)) /\
     (forall w, w <> VHtml -> ~ In w settled -> a' w = a w /\ env s' w = env s w)).
Proof.
  intros Hr Hh Hc Hm Hp Hn Hg css wrapped foreign freed. unfold finish.
  destruct (free_all_ok cleanup s a Hr cleanup_nodup Hc) as (s1 & a1 & E1 & Hr1 & Q1 & T1 & N1 & In1 & Out1).
  rewrite (bind_ok _ _ _ _ _ E1).
  assert (K1 : forall w, ~ In w cleanup -> a1 w = a w) by exact Out1.
  rewrite (bind_ok _ _ _ _ _ (isset_ok VManager s1 a1 Hr1)).
  rewrite (K1 VManager) by notin. rewrite Hp.
  (* plugins *)
  assert (X2 : exists s2 a2, (if plug then run_hstep l o meta cite HPlugins else ret tt) s1 = Ok tt s2 /\
     rep s2 a2 /\ reg s2 = reg s /\ a2 VHtml <> Gone /\
     hv a2 = (if plug then hstepped l o meta cite (reg s) HPlugins (hv a) else hv a) /\ same_but [VHtml] s1 s2 a1 a2).
  { assert (G1 : a1 VHtml <> Gone) by (rewrite K1 by notin; assumption).
    assert (V1 : hv a1 = hv a) by (unfold hv; now rewrite K1 by notin).
    destruct plug.
    - destruct (run_hstep_ok l o meta cite HPlugins s1 a1 Hr1 G1) as (s2 & a2 & E2 & Hr2 & Q2 & G2 & V2 & O2).
      { intros v [<-|[]]. rewrite K1 by notin. assumption. }
      exists s2, a2. triv. split; [congruence|]. split; [assumption|]. split; [congruence|assumption].
    - exists s1, a1. triv. apply same_refl. }
  destruct X2 as (s2 & a2 & E2 & Hr2 & Q2 & G2 & V2 & SB2). rewrite (bind_ok _ _ _ _ _ E2).
  assert (K2 : forall w, w <> VHtml -> a2 w = a1 w) by (intros w Hw; apply (SB2 w); intros [F|[]]; congruence).
  assert (K2' : forall w, w <> VHtml -> ~ In w cleanup -> a2 w = a w) by (intros w H1 H2; rewrite K2 by assumption; now apply K1).
  destruct (own_if_ok (any_script o) VScripts s2 a2 Hr2) as (s3 & E3 & Hr3 & Q3 & T3 & N3).
  { rewrite K2' by (discriminate || notin). apply Hn. now left. }
  rewrite (bind_ok _ _ _ _ _ E3).
  set (a3 := if any_script o then upd a2 VScripts (Holds []) else a2) in *.
  assert (K3 : forall w, w <> VScripts -> a3 w = a2 w) by (intros w Hw; unfold a3; destruct (any_script o); [now apply upd_neq|reflexivity]).
  assert (S3 : there (a3 VScripts) = any_script o /\ a3 VScripts <> Gone).
  { assert (Z : a2 VScripts = Null) by (rewrite K2' by (discriminate || notin); apply Hn; now left).
    unfold a3. destruct (any_script o); [rewrite upd_eq|rewrite Z]; split; (reflexivity || discriminate). }
  assert (G3m : a3 VManager <> Gone).
  { rewrite K3, K2' by (discriminate || notin). assumption. }
  destruct (free_ok VManager s3 a3 Hr3 G3m) as (s4 & E4 & Hr4 & Q4 & T4 & N4). rewrite (bind_ok _ _ _ _ _ E4).
  set (a4 := upd a3 VManager (kill (a3 VManager))) in *.
  assert (K4 : forall w, w <> VManager -> a4 w = a3 w) by (intros w Hw; now apply upd_neq).
  assert (M4 : no_block (a4 VManager)) by (unfold a4; rewrite upd_eq; intro c; destruct (a3 VManager); discriminate).
  assert (S4 : there (a4 VScripts) = any_script o /\ a4 VScripts <> Gone) by (rewrite K4 by discriminate; exact S3).
  assert (K4' : forall w, w <> VHtml -> w <> VScripts -> w <> VManager -> ~ In w cleanup -> a4 w = a w).
  { intros w H1 H2 H3 H4. rewrite K4, K3 by assumption. now apply K2'. }
  assert (KC4 : forall w, In w cleanup -> no_block (a4 w)).
  { intros w Hw. rewrite K4, K3, K2 by (intros ->; simpl in Hw; intuition discriminate).
    rewrite In1 by assumption. intro c. destruct (a w); discriminate. }
  assert (EN4 : forall w, w <> VHtml -> w <> VScripts -> env s4 w = env s w).
  { intros w H1 H2. rewrite N4, N3 by assumption. rewrite (proj2 (SB2 w ltac:(intros [F|[]]; congruence))). apply N1. }
  assert (H4 : a4 VHtml = a2 VHtml) by (rewrite K4, K3 by discriminate; reflexivity).
  assert (V4 : hv a4 = hv a2) by (unfold hv; now rewrite H4).
  assert (Q4' : reg s4 = reg s) by congruence.
  clearbody a4. clear E1 E2 E3 E4 Hr1 Hr2 Hr3 T1 T3 T4 N1 N3 N4 K3 K4 K2 K2' G3m S3 Q1 Q2 Q3 Q4 In1 Out1 K1 a3 s3.
  rewrite (bind_ok _ _ _ _ _ (owner_ok VHtml s4)).
  assert (NoneIff : hv a2 = None <-> hv a = None).
  { rewrite V2. destruct plug; [apply hstepped_none|tauto]. }
  destruct (hv a2) as [h|] eqn:Eh.
  2:{ (* no HTML *)
    assert (Z : hv a = None) by now apply NoneIff.
    split; [intros [[F _] _]; congruence|]. split; [intros [[F _] _]; congruence|]. intros _ _.
    assert (H4n : a4 VHtml = Null) by (rewrite H4; now apply hv_none in Eh).
    rewrite (rep_null _ _ Hr4 VHtml H4n).
    rewrite (bind_ok (ret tt) _ s4 tt s4 eq_refl), (bind_ok (ret tt) _ s4 tt s4 eq_refl).
    destruct (free_all_ok [VScripts; VCss; VHead; VFoot; VLang; VQuotes; VTitle] s4 a4 Hr4)
      as (s5 & a5 & E5 & Hr5 & Q5 & T5 & N5 & In5 & Out5).
    { repeat (apply NoDup_cons; [simpl; intuition discriminate|]). apply NoDup_nil. }
    { intros v Hv. destruct (var_dec v VScripts) as [->|Hs]; [apply S4|].
      rewrite K4'; try (neqin Hv || disin Hv || assumption).
      destruct (var_dec v VTitle) as [->|Ht]; [rewrite Hn by isin; discriminate|].
      apply Hg. simpl in Hv |- *. intuition congruence. }
    rewrite (bind_ok _ _ _ _ _ E5).
    assert (G5 : a5 VHtml = Null) by (rewrite Out5 by notin; assumption).
    destruct (run_hsteps_ok l o meta cite hsteps4 s5 a5 Hr5) as (s6 & a6 & E6 & Hr6 & Q6 & G6 & V6 & O6).
    { rewrite G5. discriminate. }
    { intros x v Hx Hv. simpl in Hx. destruct Hx as [<-|[<-|[<-|[]]]]; destruct Hv. }
    rewrite (bind_ok _ _ _ _ _ E6).
    exists s6, a6. split; [reflexivity|]. split; [assumption|]. split; [congruence|]. split.
    { rewrite V6. unfold tail_of. rewrite Z. unfold hv. rewrite G5.
      assert (Y : (if plug then hstepped l o meta cite (reg s) HPlugins None else None) = None) by now destruct plug.
      rewrite Y. rewrite Q5, Q4'. f_equal. cbn [hstepped]. unfold embedded.
      destruct (is_on (o Standalone)); [now destruct (is_on (o EmbedStylesheet) && sheets_given o)|now destruct (has_scripts o)]. }
    split; [assumption|]. split.
    - intros w Hw. rewrite (proj1 (O6 w ltac:(intros [F|[]]; subst w; simpl in Hw; intuition discriminate))).
      destruct (in_dec var_dec w [VScripts; VCss; VHead; VFoot; VLang; VQuotes; VTitle]) as [Hi|Hi].
      + rewrite In5 by assumption. intro c. destruct (a4 w); discriminate.
      + rewrite Out5 by assumption. unfold settled in Hw. apply in_app_iff in Hw as [Hw|Hw]; [now apply KC4|].
        destruct (var_dec w VManager) as [->|]; [assumption|].
        assert (Hw3 : In w [VCssPaths; VFooter; VOut]) by (simpl in Hw, Hi |- *; intuition congruence).
        rewrite K4' by (intro F; simpl in Hw3, F; intuition (subst; discriminate)).
        rewrite Hn by (simpl in Hw3 |- *; tauto). discriminate.
    - intros w H1 H2. destruct (O6 w) as [X1 X2]; [intros [F|[]]; congruence|].
      unfold settled in H2. rewrite in_app_iff in H2.
      rewrite X1, X2, N5, Out5 by (intro F; apply H2; right; simpl in F |- *; tauto).
      split; [apply K4'|apply EN4]; try assumption; try tauto; intro F; subst w; apply H2; right; simpl; tauto. }
  (* HTML *)
  assert (Hne : hv a <> None) by (intro F; apply NoneIff in F; discriminate).
  assert (H4h : a4 VHtml = Holds h) by (rewrite H4; now apply hv_some).
  destruct (rep_holds _ _ Hr4 VHtml h H4h) as (p & Ep & Lp). rewrite Ep.
  assert (X5 : exists s5 a5, (if (is_on (o TitleFromH1) && is_on (o Standalone) && no_title o)%bool then
        bind (read p) (fun t => own_if (match l_title l t with Some _ => true | None => false end) VTitle) else ret tt) s4
      = Ok tt s5 /\ rep s5 a5 /\ reg s5 = reg s4 /\ a5 VTitle <> Gone /\ same_but [VTitle] s4 s5 a4 a5).
  { assert (Tn : a4 VTitle = Null) by (rewrite K4' by (discriminate || notin); apply Hn; isin).
    destruct (is_on (o TitleFromH1) && is_on (o Standalone) && no_title o)%bool.
    - rewrite (bind_ok _ _ _ _ _ (read_ok _ _ _ Lp)).
      destruct (own_if_ok (match l_title l h with Some _ => true | None => false end) VTitle s4 a4 Hr4 Tn)
        as (s5 & E5 & Hr5 & Q5 & T5 & N5).
      eexists s5, _. split; [exact E5|]. split; [exact Hr5|]. split; [assumption|]. split.
      + destruct (l_title l h); [rewrite upd_eq|rewrite Tn]; discriminate.
      + intros w Hw. assert (w <> VTitle) by (intros ->; apply Hw; now left).
        split; [destruct (l_title l h); [now apply upd_neq|reflexivity]|now apply N5].
    - exists s4, a4. triv. split; [rewrite Tn; discriminate|apply same_refl]. }
  destruct X5 as (s5 & a5 & E5 & Hr5 & Q5 & Tt5 & SB5). rewrite (bind_ok _ _ _ _ _ E5).
  assert (K5 : forall w, w <> VTitle -> a5 w = a4 w) by (intros w Hw; apply (SB5 w); intros [F|[]]; congruence).
  assert (H5 : a5 VHtml = Holds h) by (rewrite K5 by discriminate; assumption).
  assert (C5 : there (a5 VCss) = css).
  { rewrite K5, K4' by (discriminate || notin). reflexivity. }
  assert (G5 : forall v, In v [VScripts; VCss; VHead; VFoot; VLang; VQuotes; VTitle] -> a5 v <> Gone).
  { intros v Hv. destruct (var_dec v VTitle) as [->|Ht]; [assumption|]. rewrite K5 by assumption.
    destruct (var_dec v VScripts) as [->|Hs]; [apply S4|].
    rewrite K4'; try (neqin Hv || disin Hv || assumption).
    apply Hg. simpl in Hv |- *. intuition congruence. }
  assert (Nul5 : forall v, In v [VCssPaths; VFooter; VOut] -> a5 v = Null).
  { intros v Hv. rewrite K5, K4' by (intros F; try subst v; simpl in *; intuition (subst; discriminate)).
    apply Hn. subin Hv. }
  (* the rest, once the page is ready *)
  assert (Rest : forall s6 a6, rep s6 a6 -> reg s6 = reg s -> a6 VHtml <> Gone ->
      (forall v, In v [VCssPaths; VFooter; VOut] -> no_block (a6 v)) -> same_but wrap_vars s5 s6 a5 a6 ->
      exists s' a', bind (free_all [VScripts; VCss; VHead; VFoot; VLang; VQuotes; VTitle])
        (fun _ => bind (run_hsteps l o meta cite hsteps4) (fun _ => owner VHtml)) s6 = Ok (env s' VHtml) s' /\
      rep s' a' /\ reg s' = reg s /\ hv a' = hstepped_all l o meta cite (reg s) last_order (hv a6) /\ a' VHtml <> Gone /\
      (forall w, In w settled -> no_block (a' w)) /\
      (forall w, w <> VHtml -> ~ In w settled -> a' w = a w /\ env s' w = env s w)).
  { intros s6 a6 Hr6 Q6 G6 NB6 SB6.
    destruct (free_all_ok [VScripts; VCss; VHead; VFoot; VLang; VQuotes; VTitle] s6 a6 Hr6)
      as (s7 & a7 & E7 & Hr7 & Q7 & T7 & N7 & In7 & Out7).
    { repeat (apply NoDup_cons; [simpl; intuition discriminate|]). apply NoDup_nil. }
    { intros v Hv. rewrite (proj1 (SB6 v ltac:(disin Hv))). now apply G5. }
    rewrite (bind_ok _ _ _ _ _ E7).
    destruct (run_hsteps_ok l o meta cite hsteps4 s7 a7 Hr7) as (s8 & a8 & E8 & Hr8 & Q8 & G8 & V8 & O8).
    { rewrite Out7 by notin. assumption. }
    { intros x v Hx Hv. simpl in Hx. destruct Hx as [<-|[<-|[<-|[]]]]; destruct Hv. }
    rewrite (bind_ok _ _ _ _ _ E8).
    exists s8, a8. split; [reflexivity|]. split; [assumption|]. split; [congruence|]. split.
    { rewrite V8, Q7, Q6. f_equal. unfold hv. now rewrite Out7 by notin. }
    split; [assumption|]. split.
    - intros w Hw. rewrite (proj1 (O8 w ltac:(intros [F|[]]; subst w; simpl in Hw; intuition discriminate))).
      destruct (in_dec var_dec w [VScripts; VCss; VHead; VFoot; VLang; VQuotes; VTitle]) as [Hi|Hi].
      + rewrite In7 by assumption. intro c. destruct (a6 w); discriminate.
      + rewrite Out7 by assumption.
        destruct (in_dec var_dec w [VCssPaths; VFooter; VOut]) as [Hj|Hj]; [now apply NB6|].
        assert (Wn : w <> VHtml) by (intros ->; simpl in Hw; intuition discriminate).
        rewrite (proj1 (SB6 w ltac:(simpl in Hj |- *; intuition congruence))).
        rewrite K5 by (intros ->; apply Hi; simpl; tauto).
        unfold settled in Hw. apply in_app_iff in Hw as [Hw|Hw]; [now apply KC4|].
        destruct (var_dec w VManager) as [->|]; [assumption|].
        exfalso. simpl in Hw, Hi, Hj. intuition congruence.
    - intros w H1 H2. destruct (O8 w) as [X1 X2]; [intros [F|[]]; congruence|].
      unfold settled in H2. rewrite in_app_iff in H2.
      assert (H3 : ~ In w [VManager; VScripts; VCss; VHead; VFoot; VLang; VQuotes; VTitle; VCssPaths; VFooter; VOut]) by tauto.
      simpl in H3.
      destruct (SB6 w) as [Y1 Y2]; [simpl; intuition congruence|].
      destruct (SB5 w) as [Z1 Z2]; [simpl; intuition congruence|].
      rewrite X1, X2, N7, Out7, Y1, Y2, Z1, Z2 by (simpl; tauto).
      split; [apply K4'|apply EN4]; try assumption; try tauto; intro F; subst w; simpl in H3; tauto. }
  destruct (is_on (o Standalone)) eqn:St.
  - destruct (wrap_ok l o meta cite s5 a5 h Hr5 H5) as (W1 & W2 & W3).
    { apply Nul5; isin. } { apply Nul5; isin. } { apply Nul5; isin. }
    { intros v Hv. apply G5. subin Hv. }
    rewrite C5 in W1, W2, W3. split; [|split].
    + intros (_ & F). now rewrite (bind_ub _ _ _ _ (W1 F)).
    + intros (_ & F). now rewrite (bind_ub _ _ _ _ (W2 F)).
    + intros F1 F2. destruct W3 as (s6 & a6 & E6 & Hr6 & Q6 & V6 & G6 & NB6 & SB6).
      { intro F. apply F1. split; [split; [assumption|reflexivity]|exact F]. }
      { intro F. apply F2. split; [split; [assumption|reflexivity]|exact F]. }
      rewrite (bind_ok _ _ _ _ _ E6).
      assert (Q6' : reg s6 = reg s) by congruence.
      destruct (Rest s6 a6 Hr6 Q6' G6 NB6 SB6) as (s' & a' & E & Hr' & Q' & V' & G' & X).
      exists s', a'. split; [exact E|]. triv. split; [|split; [assumption|exact X]].
      rewrite V', V6, Q5, Q4'. unfold tail_of. rewrite St, <- V2. reflexivity.
  - split; [intros [[_ F] _]; congruence|]. split; [intros [[_ F] _]; congruence|]. intros _ _.
    assert (X6 : exists s6 a6, bind (isset VScripts) (fun s => if s then run_hstep l o meta cite HScripts else ret tt) s5 = Ok tt s6 /\
       rep s6 a6 /\ reg s6 = reg s /\ a6 VHtml <> Gone /\
       hv a6 = (if has_scripts o then hstepped l o meta cite (reg s) HScripts (Some h) else Some h) /\
       same_but [VHtml] s5 s6 a5 a6).
    { rewrite (bind_ok _ _ _ _ _ (isset_ok VScripts s5 a5 Hr5)). rewrite K5 by discriminate. rewrite (proj1 S4).
      rewrite has_scripts_any. destruct (any_script o).
      - destruct (run_hstep_ok l o meta cite HScripts s5 a5 Hr5) as (s6 & a6 & E6 & Hr6 & Q6 & G6 & V6 & O6).
        { rewrite H5. discriminate. }
        { intros v [<-|[]]. apply G5. now left. }
        exists s6, a6. triv. split; [congruence|]. split; [assumption|]. split; [|assumption].
        rewrite V6, Q5, Q4'. unfold hv. now rewrite H5.
      - exists s5, a5. triv. split; [congruence|]. split; [rewrite H5; discriminate|].
        split; [unfold hv; now rewrite H5|apply same_refl]. }
    destruct X6 as (s6 & a6 & E6 & Hr6 & Q6 & G6 & V6 & SB6). rewrite (bind_ok _ _ _ _ _ E6).
    destruct (Rest s6 a6 Hr6 Q6 G6) as (s' & a' & E & Hr' & Q' & V' & G' & X).
    { intros v Hv. rewrite (proj1 (SB6 v ltac:(disin Hv))).
      rewrite Nul5 by assumption. discriminate. }
    { apply (same_more [VHtml] wrap_vars _ _ _ _ SB6). intros w [<-|[]]. now left. }
    exists s', a'. split; [exact E|]. triv. split; [|split; [assumption|exact X]].
    rewrite V', V6. unfold tail_of. rewrite St, <- V2. reflexivity.
Qed.
End End_.
