(** Proofs about M_Run: behind the parser; the outcome of a conversion. *)
From Verif Require Import Base BaseL M_Opt M_Run S_Run L_Run L_Run2 L_Run3 L_Run4 L_Run5.

Section Outcome.
Context {R : Type} (l : lib R).

Lemma content_html (s : st R) a : rep s a -> a VHtml <> Gone -> content (env s VHtml) s = hv a.
Proof.
  intros Hr Hg. unfold hv. destruct (a VHtml) as [|h|] eqn:E; [| |now elim Hg].
  - now rewrite (rep_null _ _ Hr _ E).
  - destruct (rep_holds _ _ Hr _ _ E) as (p & Ep & Lp). now rewrite Ep.
Qed.

Definition metas : list var := [VCss; VHead; VFoot; VLang; VQuotes].
Definition unused : list var := [VHtml; VCss; VHead; VFoot; VLang; VQuotes; VScripts; VTitle; VCssPaths; VFooter; VOut].
Definition search (o : opts) (alds : bool) : bool := is_on (o EnableWikiLinks) || (alds || kramdown_like o).

Lemma after_ok o plug meta alds cite s a fed :
  rep (R := R) s a -> (forall v, v <> VFinal -> a v <> Gone) -> (forall v, In v unused -> a v = Null) ->
  there (a VMeta) = meta -> there (a VAlds) = alds -> there (a VManager) = plug ->
  let r2 := tree l o alds (reg s) fed in
  let wrapped := format_other o = false /\ l_render l o r2 <> None /\ is_on (o Standalone) = true in
  let css := (meta && l_has l VCss r2)%bool in
  let foreign := wrapped /\ sheet_list o = Some [] /\ css = false in
  let freed := wrapped /\ sheets_given o = false /\ css = true /\ is_on (o EmbedStylesheet) = true in
  (env s VFinal = Some (txt s) -> a VFinal = Gone -> search o alds = true -> after l o meta cite s = Ub ReadFreed) /\
  (tx s a fed \/ search o alds = false ->
   (foreign -> after l o meta cite s = Ub FreeForeign) /\
   (freed -> after l o meta cite s = Ub ReadFreed) /\
   (~ foreign -> ~ freed -> exists p s' a', after l o meta cite s = Ok p s' /\ rep s' a' /\
      content p s' = (if format_other o then l_other l o r2 else page l o plug meta cite r2 (l_render l o r2)) /\
      (format_other o = false -> p = env s' VHtml /\ a' VHtml <> Gone /\
         (forall w, In w (VIndex :: settled) -> no_block (a' w)) /\
         (forall w, w <> VHtml -> ~ In w (VIndex :: settled) -> a' w = a w /\ env s' w = env s w)) /\
      (format_other o = true -> forall w, w <> VOut -> a' w = a w /\ env s' w = env s w))).
Proof.
  intros Hr Hg Hu Hm Ha Hp r2 wrapped css foreign freed. unfold after.
  rewrite (bind_ok text_ptr _ s (txt s) s eq_refl). split.
  { (* the text is gone *)
    intros Hf Gf Hs. destruct (rep_gone _ _ Hr _ Gf) as (q & Eq & Lq).
    assert (Rd : read (txt s) s = Ub ReadFreed).
    { rewrite Hf in Eq. injection Eq as <-. unfold read. now rewrite Lq. }
    unfold search in Hs. destruct (is_on (o EnableWikiLinks)).
    - apply bind_ub. apply (bind_ub _ _ _ _ Rd).
    - cbn [orb] in Hs. rewrite (bind_ok (ret false) _ s false s eq_refl).
      rewrite (bind_ok _ _ _ _ _ (isset_ok VAlds s a Hr)), Ha, Hs. apply bind_ub. apply (bind_ub _ _ _ _ Rd). }
  intro Ht.
  assert (X1 : (if is_on (o EnableWikiLinks) then bind (read (txt s)) (fun t => ret (found (B "[[") t)) else ret false) s
     = Ok (is_on (o EnableWikiLinks) && found (B "[[") fed)%bool s).
  { destruct (is_on (o EnableWikiLinks)) eqn:W; [|reflexivity].
    destruct Ht as [Ht|F]; [|unfold search in F; rewrite W in F; discriminate].
    now rewrite (bind_ok _ _ _ _ _ (tx_read s a fed Hr Ht)). }
  rewrite (bind_ok _ _ _ _ _ X1).
  rewrite (bind_ok _ _ _ _ _ (isset_ok VAlds s a Hr)), Ha.
  assert (X2 : (if (alds || kramdown_like o)%bool then bind (read (txt s)) (fun t => ret (found (B "{:") t || found (B "{#") t || found (B "{.") t)%bool)
      else ret false) s
     = Ok ((alds || kramdown_like o) && (found (B "{:") fed || found (B "{#") fed || found (B "{.") fed))%bool s).
  { destruct (alds || kramdown_like o)%bool eqn:W; [|reflexivity].
    destruct Ht as [Ht|F]; [|unfold search in F; rewrite W, Bool.orb_true_r in F; discriminate].
    now rewrite (bind_ok _ _ _ _ _ (tx_read s a fed Hr Ht)). }
  rewrite (bind_ok _ _ _ _ _ X2).
  assert (TG : forall v, In v [VDoc; VAlds; VImg] -> a v <> Gone).
  { intros v Hv. apply Hg. neqin Hv. }
  rewrite (bind_ok _ _ _ _ _ (touch_all_ok _ s a Hr TG)).
  rewrite (bind_ok get_reg _ s (reg s) s eq_refl).
  fold (tree l o alds (reg s) fed). fold r2.
  destruct (set_reg_ok r2 s a Hr) as (s1 & E1 & Hr1 & Q1 & T1 & N1). rewrite (bind_ok _ _ _ _ _ E1).
  rewrite (bind_ok get_reg _ s1 (reg s1) s1 eq_refl), Q1.
  destruct (format_other o) eqn:Fo.
  { (* other formats *)
    split; [intros [[F _] _]; discriminate|]. split; [intros [[F _] _]; discriminate|]. intros _ _.
    destruct (l_other l o r2) as [j|].
    - destruct (alloc_ok VOut j s1 a Hr1) as (s2 & E2 & Hr2 & Q2 & T2 & N2 & O2 & L2); [apply Hu; isin|].
      exists (Some (fresh s1)), s2, (upd a VOut (Holds j)). rewrite (bind_ok _ _ _ _ _ E2).
      split; [reflexivity|]. split; [assumption|]. split; [exact L2|]. split; [discriminate|].
      intros _ w Hw. split; [now apply upd_neq|rewrite O2 by assumption; now rewrite N1].
    - exists None, s1, a. split; [reflexivity|]. split; [assumption|]. split; [reflexivity|]. split; [discriminate|].
      intros _ w _. split; [reflexivity|now rewrite N1]. }
  (* HTML *)
  assert (X3 : exists s3 a3, (match l_render l o r2 with Some h => bind (alloc VHtml h) (fun _ => ret tt) | None => ret tt end) s1 = Ok tt s3 /\
      rep s3 a3 /\ reg s3 = r2 /\ a3 VHtml <> Gone /\ hv a3 = l_render l o r2 /\ same_but [VHtml] s1 s3 a a3).
  { assert (Hn : a VHtml = Null) by (apply Hu; now left). destruct (l_render l o r2) as [h|].
    - destruct (alloc_ok VHtml h s1 a Hr1 Hn) as (s3 & E3 & Hr3 & Q3 & T3 & N3 & O3 & L3).
      exists s3, (upd a VHtml (Holds h)). rewrite (bind_ok _ _ _ _ _ E3). split; [reflexivity|].
      split; [assumption|]. split; [congruence|]. unfold hv. rewrite upd_eq. split; [discriminate|].
      split; [reflexivity|]. intros w Hw. assert (w <> VHtml) by (intros ->; apply Hw; now left).
      split; [now apply upd_neq|now apply O3].
    - exists s1, a. triv. split; [congruence|]. split; [unfold hv; now rewrite Hn|apply same_refl]. }
  destruct X3 as (s3 & a3 & E3 & Hr3 & Q3 & G3 & V3 & SB3). rewrite (bind_ok _ _ _ _ _ E3).
  assert (NH : forall w, w <> VHtml -> ~ In w [VHtml]) by (intros w Hw [F|[]]; congruence).
  destruct (run_hsteps_ok l o meta cite hsteps1 s3 a3 Hr3 G3) as (s4 & a4 & E4 & Hr4 & Q4 & G4 & V4 & SB4).
  { intros x v Hx Hv. rewrite (proj1 (SB3 v ltac:(simpl in Hx, Hv |- *; intuition (subst; simpl in Hv; intuition (subst; discriminate))))).
    apply Hg. intros ->. simpl in Hx, Hv. intuition (subst; simpl in Hv; intuition discriminate). }
  rewrite (bind_ok _ _ _ _ _ E4).
  assert (K4 : forall w, w <> VHtml -> a4 w = a w /\ env s4 w = env s w).
  { intros w Hw. destruct (SB4 w (NH w Hw)) as [Y1 Y2]. destruct (SB3 w (NH w Hw)) as [Y3 Y4].
    rewrite Y1, Y2, Y3, Y4, N1. auto. }
  assert (T4 : a4 VMeta <> Gone) by (rewrite (proj1 (K4 VMeta ltac:(discriminate))); apply Hg; discriminate).
  rewrite (bind_ok _ _ _ _ _ (touch_ok VMeta s4 a4 Hr4 T4)).
  assert (X5 : exists s5 a5, (if meta then dup_all l metas else ret tt) s4 = Ok tt s5 /\ rep s5 a5 /\ reg s5 = r2 /\
      (forall v, In v metas -> a5 v <> Gone) /\ there (a5 VCss) = css /\ same_but metas s4 s5 a4 a5).
  { assert (Nul : forall v, In v metas -> a4 v = Null).
    { intros v Hv. rewrite (proj1 (K4 v ltac:(neqin Hv))).
      apply Hu. subin Hv. }
    unfold css. destruct meta.
    - destruct (dup_all_ok l metas s4 a4 Hr4) as (s5 & a5 & E5 & Hr5 & Q5 & V5 & O5); [|exact Nul|].
      { unfold metas. repeat (apply NoDup_cons; [simpl; intuition discriminate|]). apply NoDup_nil. }
      exists s5, a5. triv. split; [congruence|]. split; [intros v Hv; now apply V5|]. split; [|assumption].
      cbn [andb]. rewrite (proj1 (V5 VCss ltac:(now left))). f_equal. congruence.
    - exists s4, a4. triv. split; [congruence|]. split; [intros v Hv; rewrite Nul by assumption; discriminate|].
      split; [rewrite Nul by (now left); reflexivity|apply same_refl]. }
  destruct X5 as (s5 & a5 & E5 & Hr5 & Q5 & Me5 & Cs5 & SB5).
  change [VCss; VHead; VFoot; VLang; VQuotes] with metas. rewrite (bind_ok _ _ _ _ _ E5).
  assert (K5 : forall w, w <> VHtml -> ~ In w metas -> a5 w = a w /\ env s5 w = env s w).
  { intros w H1 H2. destruct (SB5 w H2) as [Y1 Y2]. destruct (K4 w H1) as [Y3 Y4]. split; congruence. }
  assert (H5 : a5 VHtml = a4 VHtml) by (apply (SB5 VHtml); simpl; intuition discriminate).
  destruct (run_hsteps_ok l o meta cite hsteps2 s5 a5 Hr5) as (s6 & a6 & E6 & Hr6 & Q6 & G6 & V6 & SB6).
  { now rewrite H5. }
  { intros x v Hx Hv. destruct (in_dec var_dec v metas) as [Hi|Hi]; [now apply Me5|].
    rewrite (proj1 (K5 v ltac:(intros ->; simpl in Hx, Hv; intuition (subst; simpl in Hv; intuition discriminate)) Hi)).
    apply Hg. intros ->. simpl in Hx, Hv. intuition (subst; simpl in Hv; intuition discriminate). }
  rewrite (bind_ok _ _ _ _ _ E6).
  assert (K6 : forall w, w <> VHtml -> a6 w = a5 w /\ env s6 w = env s5 w) by (intros w Hw; exact (SB6 w (NH w Hw))).
  assert (I6 : a6 VIndex <> Gone).
  { rewrite (proj1 (K6 VIndex ltac:(discriminate))), (proj1 (K5 VIndex ltac:(discriminate) ltac:(notin))).
    apply Hg. discriminate. }
  destruct (free_ok VIndex s6 a6 Hr6 I6) as (s7 & E7 & Hr7 & Q7 & T7 & N7). rewrite (bind_ok _ _ _ _ _ E7).
  set (a7 := upd a6 VIndex (kill (a6 VIndex))) in *.
  assert (K7 : forall w, w <> VIndex -> a7 w = a6 w) by (intros w Hw; now apply upd_neq).
  destruct (run_hsteps_ok l o meta cite hsteps3 s7 a7 Hr7) as (s8 & a8 & E8 & Hr8 & Q8 & G8 & V8 & SB8).
  { rewrite K7 by discriminate. assumption. }
  { intros x v Hx Hv. simpl in Hx, Hv. intuition (subst; simpl in Hv; intuition discriminate). }
  rewrite (bind_ok _ _ _ _ _ E8).
  assert (I8 : no_block (a8 VIndex)).
  { rewrite (proj1 (SB8 VIndex ltac:(notin))). unfold a7. rewrite upd_eq.
    intro c. destruct (a6 VIndex); discriminate. }
  assert (K8 : forall w, w <> VHtml -> w <> VIndex -> a8 w = a5 w /\ env s8 w = env s5 w).
  { intros w H1 H2. destruct (SB8 w (NH w H1)) as [Y1 Y2]. destruct (K6 w H1) as [Y3 Y4].
    rewrite Y1, Y2, N7, K7 by assumption. auto. }
  assert (K8' : forall w, w <> VHtml -> w <> VIndex -> ~ In w metas -> a8 w = a w /\ env s8 w = env s w).
  { intros w H1 H2 H3. destruct (K8 w H1 H2) as [Y1 Y2]. destruct (K5 w H1 H3) as [Y3 Y4]. split; congruence. }
  assert (Q8' : reg s8 = r2) by congruence.
  assert (V8' : hv a8 = hstepped_all l o meta cite r2 body_order (l_render l o r2)).
  { change body_order with (hsteps1 ++ hsteps2 ++ hsteps3). rewrite !hstepped_all_app.
    rewrite V8, Q7, Q6, Q5. f_equal. unfold hv at 1. rewrite K7 by discriminate. fold (hv a6).
    rewrite V6, Q5. f_equal. unfold hv at 1. rewrite H5. fold (hv a4). rewrite V4, Q3, V3. reflexivity. }
  assert (W8 : hv a8 <> None <-> l_render l o r2 <> None).
  { rewrite V8'. split; intros H F; apply H; first [now apply hstepped_all_none in F|apply hstepped_all_none; assumption]. }
  assert (C8 : there (a8 VCss) = css) by (rewrite (proj1 (K8 VCss ltac:(discriminate) ltac:(discriminate))); exact Cs5).
  destruct (finish_ok l o plug meta cite s8 a8 Hr8 G8) as (F1 & F2 & F3).
  { intros v Hv. assert (~ In v metas) by (disin Hv).
    rewrite (proj1 (K8' v ltac:(neqin Hv) ltac:(neqin Hv) H)).
    apply Hg. neqin Hv. }
  { rewrite (proj1 (K8' VManager ltac:(discriminate) ltac:(discriminate) ltac:(notin))). apply Hg. discriminate. }
  { rewrite (proj1 (K8' VManager ltac:(discriminate) ltac:(discriminate) ltac:(notin))). exact Hp. }
  { intros v Hv.
    rewrite (proj1 (K8' v ltac:(neqin Hv) ltac:(neqin Hv)
       ltac:(disin Hv))).
    apply Hu. subin Hv. }
  { intros v Hv. rewrite (proj1 (K8 v ltac:(neqin Hv) ltac:(neqin Hv))).
    now apply Me5. }
  rewrite C8 in F1, F2, F3. unfold foreign, freed, wrapped. split; [|split].
  - intros ((_ & A1 & A2) & A3 & A4). apply F1. split; [split; [now apply W8|assumption]|auto].
  - intros ((_ & A1 & A2) & A3 & A4). apply F2. split; [split; [now apply W8|assumption]|auto].
  - intros A1 A2. destruct F3 as (s' & a' & E & Hr' & Q' & V' & G' & NB & Oth).
    { intros ((B1 & B2) & B3). apply A1. split; [split; [reflexivity|]; split; [now apply W8|assumption]|assumption]. }
    { intros ((B1 & B2) & B3). apply A2. split; [split; [reflexivity|]; split; [now apply W8|assumption]|assumption]. }
    exists (env s' VHtml), s', a'. split; [exact E|]. split; [assumption|]. split.
    { rewrite (content_html s' a' Hr' G'), V', Q8', V8'. reflexivity. }
    split; [|discriminate]. intros _. split; [reflexivity|]. split; [assumption|]. split.
    + intros w [<-|Hw]; [|now apply NB].
      rewrite (proj1 (Oth VIndex ltac:(discriminate) ltac:(notin))). exact I8.
    + intros w H1 H2. destruct (Oth w H1) as [Y1 Y2]; [intro F; apply H2; now right|].
      destruct (K8' w H1) as [Y3 Y4]; [intros ->; apply H2; now left| |split; congruence].
      intro F. apply H2. right. unfold settled. apply in_app_iff. right. subin F.
Qed.

Lemma filters_fold o : (some_list (o AstFilterCommands) && match o AstFilterCount with Vn n => Z.ltb 0 n | _ => false end)%bool = filters_on o.
Proof. reflexivity. Qed.

Lemma live_holds s a q : rep (R := R) s a -> (lookup q (live s) <> None <-> exists v c, env s v = Some q /\ a v = Holds c).
Proof.
  intro Hr. split.
  - intro L. destruct (rep_all _ _ Hr q L) as (v & Ev). destruct (env_holds s a v q Hr Ev L) as (c & Ec & _). eauto.
  - intros (v & c & Ev & Ac). destruct (rep_holds _ _ Hr v c Ac) as (p & Ep & Lp). congruence.
Qed.

Theorem convert_ok o text s a o' meta alds cite t m fed :
  ready l o text s a o' meta alds cite t m fed ->
  let conv := convert l o text (start l) in
  let b1 := searches_freed l o' alds (reg s) t fed in
  let b2 := embeds_freed l o' meta alds (reg s) fed in
  let b3 := frees_foreign l o' meta alds (reg s) fed in
  (b1 -> conv = Ub ReadFreed) /\ (~ b1 -> b2 -> conv = Ub ReadFreed) /\ (~ b1 -> b3 -> conv = Ub FreeForeign) /\
  (~ b1 -> ~ b2 -> ~ b3 -> exists p s', conv = Ok p s' /\
     content p s' = returned l o' (manager l o) meta alds cite (reg s) fed /\
     (html_out o' (parsed l o' (reg s) fed) ->
        forall q, lookup q (live s') <> None <->
          p = Some q \/ exists x, In x forgotten /\ In x m /\ env s' (VStep x) = Some q) /\
     (~ html_out o' (parsed l o' (reg s) fed) -> forall x, In x m -> kept s' x)).
Proof.
  intros Rd conv b1 b2 b3. destruct Rd as [Run Hr Pre Cl Tx Cm Op Cn La Md Me Al Mg].
  unfold conv, convert. rewrite (bind_ok _ _ _ _ _ Run).
  destruct (alloc_ok VParser [] s a Hr) as (s1 & E1 & Hr1 & Q1 & T1 & N1 & O1 & L1); [apply La; isin|].
  rewrite (bind_ok _ _ _ _ _ E1). rewrite (bind_ok get_reg _ s1 (reg s1) s1 eq_refl), Q1.
  set (a1 := upd a VParser (Holds [])) in *.
  assert (C1 : calm a1) by now apply calm_upd.
  assert (K1 : forall w, w <> VParser -> a1 w = a w) by (intros w Hw; now apply upd_neq).
  destruct (l_parse l o' (reg s) fed) as [ok r'] eqn:Lp.
  destruct (set_reg_ok r' s1 a1 Hr1) as (s2 & E2 & Hr2 & Q2 & T2 & N2). rewrite (bind_ok _ _ _ _ _ E2).
  destruct (own_if_ok ok VDoc s2 a1 Hr2) as (s3 & E3 & Hr3 & Q3 & T3 & N3).
  { rewrite K1 by discriminate. apply La. isin. }
  rewrite (bind_ok _ _ _ _ _ E3).
  set (a3 := if ok then upd a1 VDoc (Holds []) else a1) in *.
  assert (C3 : calm a3) by now apply calm_if.
  assert (K3 : forall w, w <> VParser -> w <> VDoc -> a3 w = a w /\ env s3 w = env s w).
  { intros w H1 H2. split.
    - unfold a3. destruct ok; [rewrite upd_neq by assumption|]; now apply K1.
    - rewrite N3, N2 by assumption. now apply O1. }
  assert (D3 : there (a3 VDoc) = ok).
  { unfold a3. destruct ok; [now rewrite upd_eq|]. rewrite K1 by discriminate. rewrite La by isin. reflexivity. }
  unfold after_parse.
  destruct (free_ok VFinal s3 a3 Hr3 (C3 VFinal)) as (s4 & E4 & Hr4 & Q4 & T4 & N4). rewrite (bind_ok _ _ _ _ _ E4).
  set (a4 := upd a3 VFinal (kill (a3 VFinal))) in *.
  assert (K4 : forall w, w <> VFinal -> a4 w = a3 w) by (intros w Hw; now apply upd_neq).
  assert (G4 : forall v, v <> VFinal -> a4 v <> Gone) by (intros v Hv; rewrite K4 by assumption; apply C3).
  assert (K4' : forall w, w <> VFinal -> w <> VParser -> w <> VDoc -> a4 w = a w /\ env s4 w = env s w).
  { intros w H1 H2 H3. rewrite K4, N4 by assumption. now apply K3. }
  assert (KS : forall x, a4 (VStep x) = a (VStep x)) by (intro x; apply (K4' (VStep x)); discriminate).
  assert (KM : forall x, In x m -> exists c, a (VStep x) = Holds c).
  { intros x Hx. destruct (a (VStep x)) as [|c|] eqn:E; [apply Md in E; contradiction|eauto|now elim (Cm (VStep x))]. }
  assert (NM : forall x c, a (VStep x) = Holds c -> In x m).
  { intros x c E. destruct (in_dec tstep_dec x m) as [H|H]; [assumption|]. apply Md in H. congruence. }
  (* a block of preprocessing that is not touched *)
  assert (Kept : forall (s' : st R) a', rep s' a' -> (forall x, a' (VStep x) = a4 (VStep x)) -> forall x, In x m -> kept s' x).
  { intros s' a' Hr' Ha' x Hx. destruct (KM x Hx) as (c & Ec).
    destruct (rep_holds _ _ Hr' (VStep x) c) as (q & Eq & Lq); [rewrite Ha', KS; assumption|]. now exists q, c. }
  assert (U4 : forall v, In v unused -> a4 v = Null).
  { intros v Hv. rewrite (proj1 (K4' v ltac:(neqin Hv)
       ltac:(neqin Hv) ltac:(neqin Hv))).
    apply La. subin Hv. }
  assert (NotTree : (forall r1, parsed l o' (reg s) fed <> Tree r1) ->
     ~ b1 /\ ~ b2 /\ ~ b3 /\ ~ html_out o' (parsed l o' (reg s) fed)).
  { intro H. unfold b1, b2, b3, searches_freed, embeds_freed, frees_foreign, wraps, html_out.
    split; [|split; [|split]].
    - intros (_ & (r1 & F) & _). now apply H in F.
    - intros (r2 & ((r1 & F & _) & _) & _). now apply H in F.
    - intros (r2 & ((r1 & F & _) & _) & _). now apply H in F.
    - intros ((r1 & F) & _). now apply H in F. }
  (* the early exits *)
  assert (Frees : forall vs (s5 : st R) a5, rep s5 a5 -> NoDup vs -> (forall v, In v vs -> a5 v <> Gone) ->
     (forall v, In v vs -> In v [VDoc; VParser; VWorking; VMeta]) -> exists s6 a6,
     free_all vs s5 = Ok tt s6 /\ rep s6 a6 /\ (forall x, a6 (VStep x) = a5 (VStep x)) /\ env s6 VOut = env s5 VOut /\
     a6 VOut = a5 VOut).
  { intros vs s5 a5 Hr5 Nd Hg5 Hvs.
    destruct (free_all_ok vs s5 a5 Hr5 Nd Hg5) as (s6 & a6 & E6 & Hr6 & _ & _ & N6 & _ & Out6).
    exists s6, a6. split; [exact E6|]. split; [assumption|]. split; [|split; [apply N6|]].
    - intro x. apply Out6. intro F. apply Hvs in F. revert F. clear. simpl. intuition discriminate.
    - apply Out6. intro F. apply Hvs in F. revert F. apply notin_b. reflexivity. }
  destruct ok; cbn [negb].
  2:{ (* no document *)
    assert (P : parsed l o' (reg s) fed = Failed) by (unfold parsed; now rewrite Lp).
    destruct NotTree as (A1 & A2 & A3 & A4); [intro r1; rewrite P; discriminate|].
    split; [intro F; contradiction|]. split; [intros _ F; contradiction|]. split; [intros _ F; contradiction|]. intros _ _ _.
    destruct (Frees [VParser; VWorking; VMeta] s4 a4 Hr4) as (s6 & a6 & E6 & Hr6 & KX & _).
    { repeat (apply NoDup_cons; [simpl; intuition discriminate|]). apply NoDup_nil. }
    { intros v Hv. apply G4. neqin Hv. }
    { intros v Hv. subin Hv. }
    exists None, s6. rewrite (bind_ok _ _ _ _ _ E6). split; [reflexivity|].
    split; [unfold returned; now rewrite P|]. split; [intro F; contradiction|]. intros _. now apply (Kept s6 a6). }
  rewrite (bind_ok get_reg _ s4 (reg s4) s4 eq_refl).
  assert (Q4' : reg s4 = r') by congruence. rewrite Q4'.
  assert (NdD : NoDup [VDoc; VParser; VWorking; VMeta]).
  { repeat (apply NoDup_cons; [simpl; intuition discriminate|]). apply NoDup_nil. }
  assert (GD : forall v, In v [VDoc; VParser; VWorking; VMeta] -> a4 v <> Gone).
  { intros v Hv. apply G4. neqin Hv. }
  destruct (format_is 1 o') eqn:F1.
  { (* JSON without filters *)
    assert (P : parsed l o' (reg s) fed = Plain r') by (unfold parsed; rewrite Lp, F1; reflexivity).
    destruct NotTree as (A1 & A2 & A3 & A4); [intro r1; rewrite P; discriminate|].
    split; [intro F; contradiction|]. split; [intros _ F; contradiction|]. split; [intros _ F; contradiction|]. intros _ _ _.
    destruct (l_other l o' r') as [j|] eqn:Lo.
    - destruct (alloc_ok VOut j s4 a4 Hr4) as (s5 & E5 & Hr5 & Q5 & T5 & N5 & O5 & L5); [apply U4; isin|].
      destruct (Frees [VDoc; VParser; VWorking; VMeta] s5 _ Hr5 NdD) as (s6 & a6 & E6 & Hr6 & KX & EO & AO).
      { intros v Hv. rewrite upd_neq by (neqin Hv). now apply GD. }
      { auto. }
      exists (Some (fresh s4)), s6. unfold bind at 1. rewrite (bind_ok _ _ _ _ _ E5). unfold ret at 1.
      rewrite (bind_ok _ _ _ _ _ E6). split; [reflexivity|]. split.
      + unfold returned. rewrite P, Lo. cbn [content].
        rewrite upd_eq in AO. destruct (rep_holds _ _ Hr6 VOut j AO) as (q & Eq & Lq). congruence.
      + split; [intro F; contradiction|]. intros _. apply (Kept s6 a6 Hr6). intro x. rewrite KX. now apply upd_neq.
    - destruct (Frees [VDoc; VParser; VWorking; VMeta] s4 a4 Hr4 NdD GD) as (s6 & a6 & E6 & Hr6 & KX & _); [auto|].
      exists None, s6. rewrite (bind_ok (ret None) _ s4 None s4 eq_refl), (bind_ok _ _ _ _ _ E6).
      split; [reflexivity|]. split; [unfold returned; rewrite P, Lo; reflexivity|].
      split; [intro F; contradiction|]. intros _. now apply (Kept s6 a6). }
  rewrite filters_fold.
  (* the document tree *)
  assert (Go : forall r1 (s5 : st R) a5, parsed l o' (reg s) fed = Tree r1 -> rep s5 a5 -> reg s5 = r1 -> txt s5 = txt s4 ->
     same_but [VDoc] s4 s5 a4 a5 -> a5 VDoc <> Gone ->
     (b1 -> after l o' meta cite s5 = Ub ReadFreed) /\ (~ b1 -> b2 -> after l o' meta cite s5 = Ub ReadFreed) /\
     (~ b1 -> b3 -> after l o' meta cite s5 = Ub FreeForeign) /\
     (~ b1 -> ~ b2 -> ~ b3 -> exists p s', after l o' meta cite s5 = Ok p s' /\
       content p s' = returned l o' (manager l o) meta alds cite (reg s) fed /\
       (html_out o' (parsed l o' (reg s) fed) ->
          forall q, lookup q (live s') <> None <->
            p = Some q \/ exists x, In x forgotten /\ In x m /\ env s' (VStep x) = Some q) /\
       (~ html_out o' (parsed l o' (reg s) fed) -> forall x, In x m -> kept s' x))).
  { intros r1 s5 a5 P Hr5 Q5 T5 SB5 D5.
    assert (ND : forall w, w <> VDoc -> ~ In w [VDoc]) by (intros w Hw [F|[]]; congruence).
    assert (K5 : forall w, w <> VDoc -> a5 w = a4 w /\ env s5 w = env s4 w) by (intros w Hw; exact (SB5 w (ND w Hw))).
    destruct (after_ok o' (manager l o) meta alds cite s5 a5 fed Hr5) as (A1 & A2).
    { intros v Hv. destruct (var_dec v VDoc) as [->|Hn]; [assumption|]. rewrite (proj1 (K5 v Hn)). now apply G4. }
    { intros v Hv. rewrite (proj1 (K5 v ltac:(neqin Hv))). now apply U4. }
    { rewrite (proj1 (K5 VMeta ltac:(discriminate))), (proj1 (K4' VMeta ltac:(discriminate) ltac:(discriminate) ltac:(discriminate))). exact Me. }
    { rewrite (proj1 (K5 VAlds ltac:(discriminate))), (proj1 (K4' VAlds ltac:(discriminate) ltac:(discriminate) ltac:(discriminate))). exact Al. }
    { rewrite (proj1 (K5 VManager ltac:(discriminate))), (proj1 (K4' VManager ltac:(discriminate) ltac:(discriminate) ltac:(discriminate))). exact Mg. }
    rewrite Q5 in A2.
    set (r2 := tree l o' alds r1 fed) in *.
    assert (Txt5 : txt s5 = txt s) by congruence.
    assert (Se : search o' alds = true <-> is_on (o' EnableWikiLinks) = true \/ alds = true \/ kramdown_like o' = true).
    { unfold search. rewrite !Bool.orb_true_iff. tauto. }
    assert (B1 : b1 <-> open_line t /\ search o' alds = true).
    { unfold b1, searches_freed. rewrite Se. split; [intros (H1 & _ & H2); auto|intros (H1 & H2)].
      split; [assumption|]. split; [eauto|assumption]. }
    assert (Wr : forall r, wraps l o' alds (reg s) fed r <->
       r = r2 /\ format_other o' = false /\ l_render l o' r2 <> None /\ is_on (o' Standalone) = true).
    { intro r. unfold wraps. split.
      - intros ((x & H1 & H2) & H3). rewrite P in H1. injection H1 as <-. subst r. auto.
      - intros (-> & H). split; [|assumption]. exists r1. auto. }
    assert (B2 : b2 <-> (format_other o' = false /\ l_render l o' r2 <> None /\ is_on (o' Standalone) = true) /\
        sheets_given o' = false /\ (meta && l_has l VCss r2)%bool = true /\ is_on (o' EmbedStylesheet) = true).
    { unfold b2, embeds_freed. rewrite Bool.andb_true_iff. split.
      - intros (r & H & H1 & H2 & H3 & H4). apply Wr in H as (-> & H). auto 6.
      - intros (H & H1 & (H2 & H3) & H4). exists r2. split; [apply Wr; auto|auto]. }
    assert (B3 : b3 <-> (format_other o' = false /\ l_render l o' r2 <> None /\ is_on (o' Standalone) = true) /\
        sheet_list o' = Some [] /\ (meta && l_has l VCss r2)%bool = false).
    { unfold b3, frees_foreign. split.
      - intros (r & H & H1 & H2). apply Wr in H as (-> & H). split; [assumption|]. split; [assumption|].
        destruct meta, (l_has l VCss r2); try reflexivity. elim H2. auto.
      - intros (H & H1 & H2). exists r2. split; [apply Wr; auto|]. split; [assumption|]. intros [F1' F2].
        rewrite F1', F2 in H2. discriminate. }
    assert (Sane : ~ b1 -> tx s5 a5 fed \/ search o' alds = false).
    { intro N. destruct (search o' alds) eqn:S; [left|now right].
      assert (Hno : ~ open_line t) by (intro F; apply N, B1; auto).
      destruct Tx as (v & Ev & Av). pose proof (Cn Hno) as Fn.
      assert (V1 : v <> VFinal) by congruence.
      assert (V2 : v <> VParser) by (intros ->; rewrite La in Av by isin; discriminate).
      assert (V3 : v <> VDoc) by (intros ->; rewrite La in Av by isin; discriminate).
      exists v. destruct (K5 v V3) as [Y1 Y2]. destruct (K4' v V1 V2 V3) as [Y3 Y4]. split; congruence. }
    split; [|split; [|split]].
    - intro H. apply B1 in H as [Ho Hs]. destruct (Op Ho) as [Y1 Y2]. apply A1; [| |assumption].
      + rewrite (proj2 (K5 VFinal ltac:(discriminate))), N4, (proj2 (K3 VFinal ltac:(discriminate) ltac:(discriminate))). congruence.
      + rewrite (proj1 (K5 VFinal ltac:(discriminate))). unfold a4. rewrite upd_eq, (proj1 (K3 VFinal ltac:(discriminate) ltac:(discriminate))), Y2. reflexivity.
    - intros N H. apply (proj1 (proj2 (A2 (Sane N)))). now apply B2.
    - intros N H. apply (proj1 (A2 (Sane N))). now apply B3.
    - intros N H2 H3. destruct (A2 (Sane N)) as (_ & _ & A3).
      destruct A3 as (p & s' & a' & E & Hr' & C' & X1 & X2).
      { intro F. apply H3, B3. exact F. } { intro F. apply H2, B2. exact F. }
      exists p, s'. split; [exact E|]. split; [|split].
      + rewrite C'. unfold returned. rewrite P. reflexivity.
      + intros [_ Fo]. destruct (X1 Fo) as (Ep & Gh & NB & Oth). intro q.
        rewrite (live_holds s' a' q Hr'). split.
        * intros (v & c & Ev & Av). destruct (var_dec v VHtml) as [->|Hv]; [left; congruence|right].
          assert (Hni : ~ In v (VIndex :: settled)) by (intro F; now apply (NB v F c)).
          destruct (Oth v Hv Hni) as [Y1 Y2]. rewrite Y1 in Av.
          destruct v as [|x| | | | | | | | | | | | | | | | | | | | | | |];
            try (exfalso; apply Hni; isin).
          -- exists x. rewrite (proj1 (K5 (VStep x) ltac:(discriminate))), KS in Av.
             split; [|split; [now apply (NM x c)|assumption]].
             destruct x; try (exfalso; apply Hni; isin); cbn; clear; tauto.
          -- exfalso. rewrite (proj1 (K5 VNormal ltac:(discriminate))),
               (proj1 (K4' VNormal ltac:(discriminate) ltac:(discriminate) ltac:(discriminate))), La in Av by isin. discriminate.
          -- exfalso. rewrite (proj1 (K5 VFinal ltac:(discriminate))) in Av. unfold a4 in Av. rewrite upd_eq in Av.
             destruct (a3 VFinal); discriminate.
          -- now elim Hv.
        * intros [F|(x & Hx & Hm & Ex)].
          -- exists VHtml. rewrite Ep in F. destruct (a' VHtml) as [|c|] eqn:Eh; [|eauto|now elim Gh].
             rewrite (rep_null _ _ Hr' _ Eh) in F. discriminate.
          -- destruct (KM x Hm) as (c & Ec). exists (VStep x), c. split; [assumption|].
             rewrite (proj1 (Oth (VStep x) ltac:(discriminate) ltac:(clear - Hx; destruct x; first [notin|exfalso; simpl in Hx; intuition discriminate]))).
             rewrite (proj1 (K5 (VStep x) ltac:(discriminate))), KS. assumption.
      + intros NHt. destruct (format_other o') eqn:Fo; [|elim NHt; split; [eauto|assumption]].
        apply (Kept s' a' Hr'). intro x. rewrite (proj1 (X2 eq_refl (VStep x) ltac:(discriminate))).
        apply (K5 (VStep x)). discriminate. }
  destruct (filters_on o') eqn:Ff.
  - destruct (l_filters l o' r') as [[new r1]|] eqn:Lf.
    + assert (P : parsed l o' (reg s) fed = Tree r1) by (unfold parsed; rewrite Lp, F1, Ff, Lf; reflexivity).
      destruct (set_reg_ok r1 s4 a4 Hr4) as (s5 & E5 & Hr5 & Q5 & T5 & N5). rewrite (bind_ok _ _ _ _ _ E5).
      destruct new.
      * assert (Hd : exists c, a4 VDoc = Holds c).
        { rewrite K4 by discriminate. destruct (a3 VDoc) as [|c|] eqn:Ed; [discriminate D3|eauto|now elim (C3 VDoc)]. }
        destruct Hd as (c & Hd). destruct (rep_holds _ _ Hr5 VDoc c Hd) as (p & Ep & Lpp).
        destruct (swap_ok VDoc [] p c s5 a4 Hr5 Ep Hd) as (s6 & s7 & E6 & E7 & Hr7 & Q7 & T7 & N7 & O7 & L7).
        assert (EE : bind (owner VDoc) (fun d => bind (alloc VDoc []) (fun _ => match d with Some p => release p | None => ret tt end)) s5 = Ok tt s7).
        { rewrite (bind_ok _ _ _ _ _ (owner_ok VDoc s5)), Ep, (bind_ok _ _ _ _ _ E6). exact E7. }
        rewrite (bind_ok _ _ _ _ _ EE).
        apply (Go r1 s7 _ P Hr7); [congruence|congruence| |rewrite upd_eq; discriminate].
        intros w Hw. assert (w <> VDoc) by (intros ->; apply Hw; now left).
        split; [now apply upd_neq|]. rewrite O7 by assumption. now rewrite N5.
      * rewrite (bind_ok (ret tt) _ s5 tt s5 eq_refl).
        apply (Go r1 s5 a4 P Hr5 Q5 T5); [|apply G4; discriminate]. intros w _. now rewrite N5.
    + destruct (is_on (o' AstFilterStrict)) eqn:Fs.
      * assert (P : parsed l o' (reg s) fed = Failed) by (unfold parsed; rewrite Lp, F1, Ff, Lf, Fs; reflexivity).
        destruct NotTree as (A1 & A2 & A3 & A4); [intro r1; rewrite P; discriminate|].
        split; [intro F; contradiction|]. split; [intros _ F; contradiction|]. split; [intros _ F; contradiction|]. intros _ _ _.
        destruct (Frees [VDoc; VParser; VWorking; VMeta] s4 a4 Hr4 NdD GD) as (s6 & a6 & E6 & Hr6 & KX & _); [auto|].
        exists None, s6. rewrite (bind_ok _ _ _ _ _ E6). split; [reflexivity|].
        split; [unfold returned; now rewrite P|]. split; [intro F; contradiction|]. intros _. now apply (Kept s6 a6).
      * assert (P : parsed l o' (reg s) fed = Tree r') by (unfold parsed; rewrite Lp, F1, Ff, Lf, Fs; reflexivity).
        apply (Go r' s4 a4 P Hr4 Q4' eq_refl); [apply same_refl|apply G4; discriminate].
  - assert (P : parsed l o' (reg s) fed = Tree r') by (unfold parsed; rewrite Lp, F1, Ff; reflexivity).
    destruct (set_reg_ok r' s4 a4 Hr4) as (s5 & E5 & Hr5 & Q5 & T5 & N5). rewrite (bind_ok _ _ _ _ _ E5).
    rewrite (bind_ok (ret tt) _ s5 tt s5 eq_refl).
    apply (Go r' s5 a4 P Hr5 Q5 T5); [|apply G4; discriminate]. intros w _. now rewrite N5.
Qed.
End Outcome.
