(** Proofs about M_Run: the reading is unique; steps that are switched off. *)
From Verif Require Import Base BaseL M_Opt M_Run S_Run L_Run L_Run2 L_Run3 L_Run4 L_Run5 L_Run6.

(** ** Uniqueness *)
Lemma closes_det t x y : closes t x -> closes t y -> x = y.
Proof.
  intros H1 H2. destruct H1 as [|a c H|a c H H']; inversion H2 as [E|b d G E|b d G G' E]; subst.
  - reflexivity.
  - destruct b; discriminate.
  - destruct b; discriminate.
  - destruct a; discriminate.
  - reflexivity.
  - apply app_inj_tail in E as [-> ->]. destruct H; contradiction.
  - destruct a; discriminate.
  - apply app_inj_tail in E as [-> ->]. destruct G; contradiction.
  - apply app_inj_tail in E as [-> ->]. reflexivity.
Qed.
Lemma given_det s t x y : given s t x -> given s t y -> x = y.
Proof.
  intros H1 H2. destruct H1 as [|t Hn|t t' Hi Ht Hc]; inversion H2 as [E|u Gn E|u u' Gi Gt Gc]; subst; try congruence; try contradiction.
  now apply (closes_det t).
Qed.

Section Det.
Context {R : Type} (l : lib R).
Lemma stepped_det o meta cite s r t r1 t1 m1 r2 t2 m2 :
  stepped l o meta cite s r t r1 t1 m1 -> stepped l o meta cite s r t r2 t2 m2 -> r1 = r2 /\ t1 = t2 /\ m1 = m2.
Proof.
  intros H1 H2. destruct H1 as [r t N|r t t' r' W G E|r t t' r' c W G E]; inversion H2 as [? ? N2|? ? t'' r'' W2 G2 E2|? ? t'' r'' c2 W2 G2 E2]; subst;
    try contradiction; auto; rewrite (given_det _ _ _ _ G G2) in E; rewrite E in E2; try discriminate; injection E2; intros; subst; auto.
Qed.
Lemma stepped_all_det o meta cite ss : forall r t r1 t1 m1 r2 t2 m2,
  stepped_all l o meta cite ss r t r1 t1 m1 -> stepped_all l o meta cite ss r t r2 t2 m2 -> r1 = r2 /\ t1 = t2 /\ m1 = m2.
Proof.
  induction ss as [|s ss IH]; intros r t r1 t1 m1 r2 t2 m2 H1 H2;
    inversion H1 as [|? ? ? ? ra ta ? ? ma mb A1 A2]; inversion H2 as [|? ? ? ? rb tb ? ? mc md B1 B2]; subst; [auto|].
  destruct (stepped_det _ _ _ _ _ _ _ _ _ _ _ _ A1 B1) as (-> & -> & ->).
  destruct (IH _ _ _ _ _ _ _ _ A2 B2) as (-> & -> & ->). auto.
Qed.
Lemma taken_det o t m1 a1 r1 t1 m2 a2 r2 t2 : taken l o t m1 a1 r1 t1 -> taken l o t m2 a2 r2 t2 ->
  m1 = m2 /\ a1 = a2 /\ r1 = r2 /\ t1 = t2.
Proof.
  assert (M24 : in_mode o [2]%Z -> in_mode o [2; 3; 4]%Z) by (intros (m & E & [<-|[]]); exists 2%Z; simpl; auto).
  assert (M34 : in_mode o [3; 4]%Z -> in_mode o [2; 3; 4]%Z) by (intros (m & E & H); exists m; split; [assumption|]; now right).
  assert (M : in_mode o [2]%Z -> in_mode o [3; 4]%Z -> False).
  { intros (m & E & [<-|[]]) (n & E' & [<-|[<-|[]]]); rewrite E in E'; discriminate. }
  intros H1 H2. destruct H1; inversion H2; subst; try tauto; auto;
    repeat match goal with A : ?x = _, B : ?x = _ |- _ => rewrite A in B; injection B; clear B; intros; subst end; auto.
Qed.
Lemma preprocessed_det o text o1 me1 al1 ci1 r1 t1 m1 o2 me2 al2 ci2 r2 t2 m2 :
  preprocessed l o text o1 me1 al1 ci1 r1 t1 m1 -> preprocessed l o text o2 me2 al2 ci2 r2 t2 m2 ->
  o1 = o2 /\ me1 = me2 /\ al1 = al2 /\ ci1 = ci2 /\ r1 = r2 /\ t1 = t2 /\ m1 = m2.
Proof.
  intros H1 H2.
  destruct H1 as [meta alds r0 t0 ra ta ma bib rb rc tc mc A1 A2 A3 A4].
  destruct H2 as [meta' alds' r0' t0' ra' ta' ma' bib' rb' rc' tc' mc' B1 B2 B3 B4].
  destruct (taken_det _ _ _ _ _ _ _ _ _ _ A1 B1) as (<- & <- & <- & <-).
  destruct (stepped_det _ _ _ _ _ _ _ _ _ _ _ _ A2 B2) as (<- & <- & <-).
  rewrite A3 in B3. injection B3 as <- <-.
  destruct (stepped_all_det _ _ _ _ _ _ _ _ _ _ _ _ A4 B4) as (<- & <- & <-). auto 10.
Qed.

(** Any reading is the one of the run. *)
Lemma front_exact o text o' meta alds cite r t m fed :
  preprocessed l o text o' meta alds cite r t m -> closes t fed ->
  exists s a, reg s = r /\ ready l o text s a o' meta alds cite t m fed.
Proof.
  intros P C. destruct (front_ok l o text) as (s & a & o2 & me2 & al2 & ci2 & t2 & m2 & fed2 & Rd).
  pose proof (rd_pre l _ _ _ _ _ _ _ _ _ _ _ Rd) as P2.
  destruct (preprocessed_det _ _ _ _ _ _ _ _ _ _ _ _ _ _ _ _ P P2) as (-> & -> & -> & -> & -> & -> & ->).
  rewrite (closes_det _ _ _ C (rd_closes l _ _ _ _ _ _ _ _ _ _ _ Rd)). eauto.
Qed.
End Det.

(** ** Steps that are switched off *)
Section Off.
Context {R : Type}.

Lemma bind_same {A C} (m1 m2 : @M R A) (k1 k2 : A -> @M R C) :
  (forall s, m1 s = m2 s) -> (forall x s, k1 x s = k2 x s) -> forall s, bind m1 k1 s = bind m2 k2 s.
Proof. intros H1 H2 s. unfold bind. rewrite H1. destruct (m2 s); [apply H2|reflexivity]. Qed.

Lemma same_t_eq a b : same_t a b = true <-> a = b.
Proof.
  unfold same_t. split; [|intros ->; apply N.eqb_refl]. intro H. apply N.eqb_eq in H.
  assert (E : vnum (VStep a) = vnum (VStep b)) by (cbn [vnum]; now rewrite H).
  pose proof (var_of_num (VStep a)) as E1. rewrite E, var_of_num in E1. now injection E1.
Qed.

(** *** Behind the parser: libraries that agree on what is asked of them *)
Section Like.
Context (l l2 : lib R) (o : opts) (meta cite : bool).
Hypothesis Hwhen : forall r y, hwhen o meta cite r l2 y = hwhen o meta cite r l y.
Hypothesis Hhtml : forall r y, y <> HWrap -> hwhen o meta cite r l y = true -> l_html l2 y = l_html l y.
Hypothesis Hwrap : is_on (o Standalone) = true -> l_html l2 HWrap = l_html l HWrap.
Hypothesis Hsheet : l_sheet l2 = l_sheet l.
Hypothesis Htitle : l_title l2 = l_title l.
Hypothesis Hhas : l_has l2 = l_has l.
Hypothesis Hrender : l_render l2 = l_render l.
Hypothesis Hother : l_other l2 = l_other l.
Hypothesis Htree : l_tree l2 = l_tree l.
Hypothesis Hfilters : l_filters l2 = l_filters l.
Lemma run_hstep_like y : y <> HWrap -> forall s, run_hstep l2 o meta cite y s = run_hstep l o meta cite y s.
Proof.
  intro N. unfold run_hstep. apply bind_same; [reflexivity|]. intros r s1. rewrite Hwhen.
  destruct (hwhen o meta cite r l y) eqn:E; [|reflexivity]. rewrite (Hhtml r y N E). reflexivity.
Qed.
Lemma run_hsteps_like ys : ~ In HWrap ys -> forall s, run_hsteps l2 o meta cite ys s = run_hsteps l o meta cite ys s.
Proof.
  induction ys as [|y ys IH]; intro N; cbn [run_hsteps]; [reflexivity|].
  apply bind_same; [apply run_hstep_like; intros ->; apply N; now left|intros _; apply IH; intro F; apply N; now right].
Qed.
Lemma embed_sheets_like ps : forall s, embed_sheets l2 o ps s = embed_sheets l o ps s.
Proof.
  induction ps as [|p ps IH]; intro s; [reflexivity|]. cbn [embed_sheets]. rewrite Hsheet.
  apply bind_same; [reflexivity|]. intros _. exact IH.
Qed.
Lemma dup_all_like vs : forall s, dup_all l2 vs s = dup_all l vs s.
Proof.
  induction vs as [|v vs IH]; intro s; [reflexivity|]. cbn [dup_all]. rewrite Hhas.
  apply bind_same; [reflexivity|]. intro r. apply bind_same; [reflexivity|]. intros _. exact IH.
Qed.
Lemma wrap_like : is_on (o Standalone) = true -> forall s, wrap l2 o s = wrap l o s.
Proof.
  intro St. unfold wrap. rewrite (Hwrap St).
  apply bind_same; [reflexivity|]. intro css. apply bind_same; [reflexivity|]. intros _.
  apply bind_same; [reflexivity|]. intro foot. apply bind_same; [reflexivity|]. intro scripts.
  apply bind_same; [reflexivity|]. intros _. apply bind_same; [reflexivity|]. intros _.
  apply bind_same; [reflexivity|]. intro h. apply bind_same; [reflexivity|]. intro r.
  apply bind_same; [reflexivity|]. intros _. apply bind_same; [reflexivity|]. intros _.
  destruct (is_on (o EmbedStylesheet)); [|reflexivity].
  apply bind_same; [reflexivity|]. intro own. destruct own; [reflexivity|].
  destruct (sheets_given o); [apply embed_sheets_like|reflexivity].
Qed.
Lemma finish_like : forall s, finish l2 o meta cite s = finish l o meta cite s.
Proof.
  unfold finish. rewrite Htitle. apply bind_same; [reflexivity|]. intros _.
  apply bind_same; [reflexivity|]. intro m.
  apply bind_same; [destruct m; [now apply run_hstep_like|reflexivity]|]. intros _.
  apply bind_same; [reflexivity|]. intros _. apply bind_same; [reflexivity|]. intros _.
  apply bind_same; [reflexivity|]. intro h. apply bind_same; [reflexivity|]. intros _.
  apply bind_same.
  - destruct h; [|reflexivity]. pose proof wrap_like as Wl. pose proof run_hstep_like as Wh. destruct (is_on (o Standalone)) eqn:St; [now apply Wl|].
    apply bind_same; [reflexivity|]. intro b. destruct b; [now apply Wh|reflexivity].
  - intros _. apply bind_same; [reflexivity|]. intros _.
    apply bind_same; [apply run_hsteps_like; cbn; intuition discriminate|]. reflexivity.
Qed.
Lemma after_like : forall s, after l2 o meta cite s = after l o meta cite s.
Proof.
  unfold after. rewrite Htree, Hother, Hrender. apply bind_same; [reflexivity|]. intro p.
  apply bind_same; [reflexivity|]. intro wiki. apply bind_same; [reflexivity|]. intro alds.
  apply bind_same; [reflexivity|]. intro ial. apply bind_same; [reflexivity|]. intros _.
  apply bind_same; [reflexivity|]. intro r. apply bind_same; [reflexivity|]. intros _.
  apply bind_same; [reflexivity|]. intro r2. destruct (format_other o); [reflexivity|].
  apply bind_same; [reflexivity|]. intros _. apply bind_same; [apply run_hsteps_like; cbn; intuition discriminate|]. intros _.
  apply bind_same; [reflexivity|]. intros _.
  apply bind_same; [destruct meta; [apply dup_all_like|reflexivity]|]. intros _.
  apply bind_same; [apply run_hsteps_like; cbn; intuition discriminate|]. intros _. apply bind_same; [reflexivity|]. intros _.
  apply bind_same; [apply run_hsteps_like; cbn; intuition discriminate|]. intros _. apply finish_like.
Qed.
Lemma after_parse_like ok : forall s, after_parse l2 o meta cite ok s = after_parse l o meta cite ok s.
Proof.
  unfold after_parse. rewrite Hother, Hfilters. apply bind_same; [reflexivity|]. intros _. destruct (negb ok); [reflexivity|].
  apply bind_same; [reflexivity|]. intro r. destruct (format_is 1 o); [reflexivity|]. intro s0. cbv zeta.
  match goal with |- context [match ?e with Some _ => _ | None => _ end] => destruct e as [[new r']|] end.
  - apply bind_same; [reflexivity|]. intros _. apply bind_same; [destruct new; reflexivity|]. intros _. apply after_like.
  - destruct (is_on (o AstFilterStrict)); [reflexivity|]. apply after_like.
Qed.
End Like.

(** *** Text *)
Section Text.
Context (l : lib R) (x : tstep) (f : opts -> R -> str -> option str * R).
Notation l2 := (other_text x f l).
Lemma run_tstep_off o meta cite y : (y = x -> twhen o meta cite x = false) ->
  forall s, run_tstep l2 o meta cite y s = run_tstep l o meta cite y s.
Proof.
  intros H s. unfold run_tstep. destruct (same_t y x) eqn:E.
  - apply same_t_eq in E. rewrite E in *. now rewrite H.
  - cbn [other_text l_text]. rewrite E. reflexivity.
Qed.
Lemma run_tsteps_off o meta cite ys : twhen o meta cite x = false ->
  forall s, run_tsteps l2 o meta cite ys s = run_tsteps l o meta cite ys s.
Proof.
  intro H. induction ys as [|y ys IH]; cbn [run_tsteps]; [reflexivity|].
  apply bind_same; [|intros _; exact IH]. now apply run_tstep_off.
Qed.
Lemma twhen_set o meta cite : x <> TCitations ->
  twhen (set (EnableCitations, on) o) meta cite x = twhen o meta cite x.
Proof. intro H. destruct x; try reflexivity. now elim H. Qed.
Lemma front_off o text : x <> TCitations -> (forall meta cite, twhen o meta cite x = false) ->
  forall s, front l2 o text s = front l o text s.
Proof.
  intros Hx H. unfold front. apply bind_same; [reflexivity|]. intros _.
  apply bind_same; [reflexivity|]. intro meta. apply bind_same; [reflexivity|]. intros _.
  apply bind_same; [reflexivity|]. intro r. cbn [other_text l_cites l_bib].
  set (o' := if (meta && l_cites l r)%bool then set (EnableCitations, on) o else o).
  assert (W : forall cite, twhen o' meta cite x = false).
  { intro cite. unfold o'. destruct (meta && l_cites l r)%bool; [rewrite twhen_set by assumption|]; apply H. }
  apply bind_same; [apply run_tstep_off; intros _; apply W|]. intros _.
  apply bind_same; [reflexivity|]. intros _. apply bind_same; [reflexivity|]. intro r2.
  destruct (l_bib l o' r2) as [bib r']. apply bind_same; [reflexivity|]. intros _.
  apply bind_same; [reflexivity|]. intros _. apply bind_same; [apply run_tsteps_off; apply W|]. reflexivity.
Qed.
Lemma convert_text_off o text : x <> TCitations -> ~ meets o (needs x) ->
  convert l2 o text (start l2) = convert l o text (start l).
Proof.
  intros Hx Hn. change (start l2) with (start l). unfold convert. apply bind_same.
  - apply front_off; [assumption|]. intros meta cite. destruct (twhen o meta cite x) eqn:E; [|reflexivity].
    apply runs_when in E. elim Hn. apply E.
  - intros [[[o' meta] cite] fed].
    apply bind_same; [reflexivity|]. intros _. apply bind_same; [reflexivity|]. intro r.
    cbn [other_text l_parse]. destruct (l_parse l o' r fed) as [ok r'].
    apply bind_same; [reflexivity|]. intros _. apply bind_same; [reflexivity|]. intros _.
    apply after_parse_like; reflexivity.
Qed.
End Text.

(** *** HTML *)
Section Html.
Context (l : lib R) (x : hstep) (f : opts -> R -> str -> option str).
Notation l2 := (other_html x f l).
Lemma hactive_set o meta cite r : x <> HCitations -> x <> HBib ->
  hactive l (set (EnableCitations, on) o) meta cite r x = hactive l o meta cite r x.
Proof. intros H1 H2. destruct x; try reflexivity; [now elim H1|now elim H2]. Qed.
Lemma fits_meets o n : fits o n = true <-> meets o n.
Proof.
  unfold fits, meets. rewrite Bool.andb_true_iff, forallb_forall.
  assert (E : (match snd n, o Mode with None, _ => true | Some ms, Vn m => existsb (Z.eqb m) ms | _, _ => false end) = true <->
              match snd n with None => True | Some ms => exists m, o Mode = Vn m /\ In m ms end).
  { destruct (snd n) as [ms|]; [|tauto]. destruct (o Mode) as [|m| |]; try (split; [discriminate|intros (m & F & _); discriminate]).
    rewrite existsb_exists. split.
    - intros (k & Hk & E). apply Z.eqb_eq in E as ->. eauto.
    - intros (k & E & Hk). injection E as ->. exists k. split; [assumption|apply Z.eqb_refl]. }
  rewrite E. split; intros [H1 H2]; (split; [|assumption]); intros g Hg; apply is_on_true; now apply H1.
Qed.
Lemma front_options o text s y s' : front l o text s = Ok y s' ->
  fst (fst (fst y)) = o \/ fst (fst (fst y)) = set (EnableCitations, on) o.
Proof.
  unfold front. unfold bind at 1. destruct (prepare l o text s) as [u s1|]; [|discriminate].
  unfold bind at 1. destruct (isset VMeta s1) as [meta s2|]; [|discriminate].
  unfold bind at 1. destruct (touch VMeta s2) as [u2 s3|]; [|discriminate].
  unfold bind at 1. unfold get_reg at 1.
  set (o' := if (meta && l_cites l (reg s3))%bool then set (EnableCitations, on) o else o).
  unfold bind at 1. destruct (run_tstep l o' meta false TMetaVars s3) as [u3 s4|]; [|discriminate].
  unfold bind at 1. destruct (touch VMeta s4) as [u4 s5|]; [|discriminate].
  unfold bind at 1. unfold get_reg at 1. destruct (l_bib l o' (reg s5)) as [bib r'].
  unfold bind at 1. destruct (set_reg r' s5) as [u5 s6|]; [|discriminate].
  unfold bind at 1. destruct (own_if bib VBib s6) as [u6 s7|]; [|discriminate].
  unfold bind at 1. match goal with |- context [run_tsteps ?a ?b ?c ?d ?e ?g] => destruct (run_tsteps a b c d e g) as [u7 s8|] end; [|discriminate].
  unfold bind at 1. destruct (normalize s8) as [fed s9|]; [|discriminate].
  unfold ret. intro E. injection E as <- _. cbn [fst]. unfold o'. destruct (meta && l_cites l (reg s3))%bool; auto.
Qed.
Lemma convert_html_off o text : x <> HCitations -> x <> HBib ->
  ~ meets o (hneeds x) \/ x = HWrap /\ o Standalone <> Vb true ->
  convert l2 o text (start l2) = convert l o text (start l).
Proof.
  intros H1 H2 Hn. change (start l2) with (start l). unfold convert.
  change (front l2 o text) with (front l o text). unfold bind at 1 6.
  destruct (front l o text (start l)) as [y s|] eqn:F; [|reflexivity].
  pose proof (front_options o text _ _ _ F) as Ho. destruct y as [[[o' meta] cite] fed]. cbn [fst] in Ho.
  assert (Off : x <> HWrap -> forall r, hactive l o' meta cite r x = false).
  { intro Nw. assert (Z : forall r, hactive l o meta cite r x = false).
    { intro r. unfold hactive. destruct (fits o (hneeds x)) eqn:E; [|reflexivity]. apply fits_meets in E.
      destruct Hn as [Hn|[Hn _]]; contradiction. }
    intro r. destruct Ho as [->| ->]; [apply Z|]. rewrite hactive_set by assumption. apply Z. }
  assert (St : x = HWrap -> is_on (o' Standalone) = true -> False).
  { intros -> St. destruct Hn as [Hn|[_ Hn]].
    - apply Hn. split; [intros g []|exact I].
    - apply is_on_true in St. destruct Ho as [->| ->]; contradiction. }
  apply bind_same; [reflexivity|]. intros _. apply bind_same; [reflexivity|]. intro r.
  cbn [other_html l_parse]. destruct (l_parse l o' r fed) as [ok r'].
  apply bind_same; [reflexivity|]. intros _. apply bind_same; [reflexivity|]. intros _.
  apply after_parse_like; try reflexivity.
  - intros r0 y Ny E. cbn [other_html l_html]. destruct (hstep_eq y x) as [->|Hy]; [|reflexivity].
    rewrite hwhen_active, Off in E by assumption. discriminate.
  - intro St'. cbn [other_html l_html]. destruct (hstep_eq HWrap x) as [E|_]; [|reflexivity].
    elim (St (eq_sym E) St').
Qed.
End Html.
End Off.

(** ** The theorems *)
Section Final.
Context {R : Type} (l : lib R).
Lemma open_dec t : open_line t \/ ~ open_line t.
Proof.
  destruct (list_eq_dec ascii_dec t []) as [->|N]; [left; now left|].
  destruct (exists_last N) as (a & c & ->).
  destruct (ascii_dec c NL) as [->|N1].
  - right. intros [E|(b & d & E & F & _)]; [destruct a; discriminate|]. apply app_inj_tail in E as [_ E]. now rewrite E in F.
  - destruct (ascii_dec c CR) as [->|N2].
    + right. intros [E|(b & d & E & _ & F)]; [destruct a; discriminate|]. apply app_inj_tail in E as [_ E]. now rewrite E in F.
    + left. right. exists a, c. auto.
Qed.
Lemma tree_dec (g : stage) : (exists r : R, g = Tree r) \/ ~ (exists r : R, g = Tree r).
Proof. destruct g; [right|right|left; eauto]; intros (? & ?); discriminate. Qed.
Lemma searches_dec o alds r t fed : searches_freed l o alds r t fed \/ ~ searches_freed l o alds r t fed.
Proof.
  unfold searches_freed. destruct (open_dec t); [|tauto]. destruct (tree_dec (parsed l o r fed)); [|tauto].
  destruct (is_on (o EnableWikiLinks)), alds, (kramdown_like o); (tauto || (right; intros (_ & _ & [F|[F|F]]); discriminate)).
Qed.
Lemma wraps_dec o alds r fed : (exists r2, wraps l o alds r fed r2) \/ ~ (exists r2, wraps l o alds r fed r2).
Proof.
  unfold wraps. destruct (parsed l o r fed) as [|r1|r1] eqn:E;
    try (right; intros (r2 & ((r3 & F & _) & _)); discriminate).
  destruct (format_other o); [right; intros (r2 & _ & F & _); discriminate|].
  destruct (is_on (o Standalone)); [|right; intros (r2 & _ & _ & _ & F); discriminate].
  destruct (l_render l o (tree l o alds r1 fed)) eqn:F.
  - left. exists (tree l o alds r1 fed). repeat split; eauto. congruence.
  - right. intros (r2 & (r3 & G & ->) & _ & N & _). injection G as <-. contradiction.
Qed.
Lemma wraps_fun o alds r fed x y : wraps l o alds r fed x -> wraps l o alds r fed y -> x = y.
Proof. intros ((r1 & E1 & ->) & _) ((r2 & E2 & ->) & _). congruence. Qed.
Lemma embeds_dec o meta alds r fed : embeds_freed l o meta alds r fed \/ ~ embeds_freed l o meta alds r fed.
Proof.
  destruct (wraps_dec o alds r fed) as [(r2 & W)|N]; [|right; intros (r2 & W & _); eauto].
  destruct (sheets_given o) eqn:E1; [right; intros (r3 & _ & F & _); congruence|].
  destruct meta; [|right; intros (r3 & _ & _ & F & _); discriminate].
  destruct (l_has l VCss r2) eqn:E2; [|right; intros (r3 & W3 & _ & _ & F & _); rewrite (wraps_fun _ _ _ _ _ _ W W3) in E2; congruence].
  destruct (is_on (o EmbedStylesheet)) eqn:E3; [|right; intros (r3 & _ & _ & _ & _ & F); congruence].
  left. exists r2. auto.
Qed.
Lemma foreign_dec o meta alds r fed : frees_foreign l o meta alds r fed \/ ~ frees_foreign l o meta alds r fed.
Proof.
  destruct (wraps_dec o alds r fed) as [(r2 & W)|N]; [|right; intros (r2 & W & _); eauto].
  destruct (sheet_list o) as [[|x xs]|] eqn:E1; try (right; intros (r3 & _ & F & _); congruence).
  destruct meta; [destruct (l_has l VCss r2) eqn:E2|].
  - right. intros (r3 & W3 & _ & F). apply F. now rewrite <- (wraps_fun _ _ _ _ _ _ W W3).
  - left. exists r2. split; [assumption|]. split; [exact E1|]. intros [_ F]. congruence.
  - left. exists r2. split; [assumption|]. split; [exact E1|]. intros [F _]. discriminate.
Qed.
Context (o : opts) (text : str) (o' : opts) (meta alds cite : bool) (r : R) (t : str) (m : list tstep) (fed : str).
Hypothesis P : preprocessed l o text o' meta alds cite r t m.
Lemma convert_safe : closes t fed ->
  ((exists p s, convert l o text (start l) = Ok p s) <->
   ~ searches_freed l o' alds r t fed /\ ~ embeds_freed l o' meta alds r fed /\ ~ frees_foreign l o' meta alds r fed).
Proof.
  intro C. destruct (front_exact l _ _ _ _ _ _ _ _ _ _ P C) as (s & a & Er & Rd).
  pose proof (convert_ok l _ _ _ _ _ _ _ _ _ _ _ Rd) as K. cbv zeta in K. rewrite Er in K.
  destruct K as (K1 & K2 & K3 & K4). split.
  - intros (p & s' & E). destruct (searches_dec o' alds r t fed) as [F|N1]; [rewrite (K1 F) in E; discriminate|].
    split; [assumption|]. destruct (embeds_dec o' meta alds r fed) as [F|N2]; [rewrite (K2 N1 F) in E; discriminate|].
    split; [assumption|]. intro F. rewrite (K3 N1 F) in E. discriminate.
  - intros (N1 & N2 & N3). destruct (K4 N1 N2 N3) as (p & s' & E & _). eauto.
Qed.
Lemma convert_end p s' : closes t fed -> convert l o text (start l) = Ok p s' ->
  content p s' = returned l o' (manager l o) meta alds cite r fed /\
  (html_out o' (parsed l o' r fed) ->
     forall q, lookup q (live s') <> None <-> p = Some q \/ exists x, In x forgotten /\ In x m /\ env s' (VStep x) = Some q) /\
  (~ html_out o' (parsed l o' r fed) -> forall x, In x m -> kept s' x).
Proof.
  intros C E. assert (Q : exists p s, convert l o text (start l) = Ok p s) by eauto.
  apply (convert_safe C) in Q as (N1 & N2 & N3).
  destruct (front_exact l _ _ _ _ _ _ _ _ _ _ P C) as (s & a & Er & Rd).
  pose proof (convert_ok l _ _ _ _ _ _ _ _ _ _ _ Rd) as K. cbv zeta in K. rewrite Er in K.
  destruct K as (_ & _ & _ & K4). destruct (K4 N1 N2 N3) as (p' & s2 & E' & K). rewrite E in E'. injection E' as <- <-. exact K.
Qed.
Lemma convert_returns p s' : closes t fed -> convert l o text (start l) = Ok p s' ->
  content p s' = returned l o' (manager l o) meta alds cite r fed.
Proof. intros C E. apply (convert_end p s' C E). Qed.
Lemma options_of : o' = o \/ o' = set (EnableCitations, on) o.
Proof. destruct P. unfold with_cites. destruct (_ && _)%bool; auto. Qed.
Lemma made_in_step o1 me ci x r0 t0 r1 t1 m1 y : stepped l o1 me ci x r0 t0 r1 t1 m1 -> In y m1 -> y = x /\ runs o1 me ci x.
Proof. intros H I. destruct H; cbn [In] in I; try contradiction. destruct I as [<-|[]]. auto. Qed.
Lemma made_in_steps o1 me ci ss : forall r0 t0 r1 t1 m1 y, stepped_all l o1 me ci ss r0 t0 r1 t1 m1 -> In y m1 -> In y ss /\ runs o1 me ci y.
Proof.
  induction ss as [|x ss IH]; intros r0 t0 r1 t1 m1 y H I; inversion H as [|? ? ? ? ra ta ? ? ma mb A1 A2]; subst; [contradiction|].
  apply in_app_iff in I as [I|I].
  - destruct (made_in_step _ _ _ _ _ _ _ _ _ _ A1 I) as [-> W]. split; [now left|assumption].
  - destruct (IH _ _ _ _ _ _ A2 I) as [W1 W2]. split; [now right|assumption].
Qed.
Lemma made_runs x : In x m -> runs o' meta cite x.
Proof.
  destruct P as [me al r0 t0 r1 t1 m1 bib r2 r3 t3 m3 A1 A2 A3 A4]. intro I. apply in_app_iff in I as [I|I].
  - destruct (made_in_step _ _ _ _ _ _ _ _ _ _ A2 I) as [-> [W1 W2]]. split; assumption.
  - now destruct (made_in_steps _ _ _ _ _ _ _ _ _ _ A4 I).
Qed.
End Final.
Lemma closes_not_open t : closes t t -> ~ open_line t.
Proof.
  intros C [->|(a & c & -> & N1 & N2)]; inversion C as [E|b d G E|b d G G' E F].
  - destruct b; discriminate.
  - destruct b; discriminate.
  - apply app_inj_tail in E as [_ ->]. destruct G; contradiction.
  - apply app_inj_tail in E as [-> ->]. apply (f_equal (@length _)) in F. rewrite !app_length in F. cbn in F. lia.
Qed.
Lemma convert_plain {R} (l : lib R) o text o' meta alds cite r t m :
  preprocessed l o text o' meta alds cite r t m -> closes t t -> o Standalone <> Vb true ->
  exists p s, convert l o text (start l) = Ok p s.
Proof.
  intros P C S0. apply (convert_safe l o text o' meta alds cite r t m t P C).
  assert (W : forall r2, ~ wraps l o' alds r t r2).
  { intros r2 (_ & _ & _ & F). apply is_on_true in F. destruct (options_of l _ _ _ _ _ _ _ _ _ P) as [->| ->]; contradiction. }
  split; [intros (F & _); now apply (closes_not_open t)|]. split; intros (r2 & F & _); now apply (W r2).
Qed.

(** ** CommonMark *)
Definition ever : list tstep := [TInlineTables; THighlights; TInserts; TLiquid].
Lemma commonmark_runs meta cite x : runs (for_mode 0) meta cite x -> In x ever.
Proof.
  intros [[H1 H2] _].
  destruct x; cbn [needs fst snd only any_mode] in H1, H2;
    try (specialize (H1 _ (or_introl eq_refl)); vm_compute in H1; discriminate);
    try (destruct H2 as (m & E & H2); vm_compute in E; injection E as <-; cbn in H2; intuition discriminate);
    unfold ever; cbn; auto 10.
Qed.
Section Quiet.
Context {R : Type} (l : lib R).
Lemma quiet_steps o meta cite ss : forall r t r' t' m,
  (forall x r t, In x ss -> runs o meta cite x -> fst (l_text l x o r t) = None) ->
  stepped_all l o meta cite ss r t r' t' m -> t' = t /\ m = [].
Proof.
  induction ss as [|x ss IH]; intros r t r' t' m Q H; inversion H as [|? ? ? ? ra ta ? ? ma mb A1 A2]; subst; [auto|].
  assert (E : ta = t /\ ma = []).
  { inversion A1 as [|? ? t1 r1 W G E|? ? t1 r1 c W G E]; subst; auto.
    specialize (Q x r t1 (or_introl eq_refl) W). rewrite E in Q. discriminate. }
  destruct E as [-> ->]. destruct (IH _ _ _ _ _ (fun y r t I => Q y r t (or_intror I)) A2) as [-> ->]. auto.
Qed.
Lemma commonmark_pre text o' meta alds cite r t m :
  preprocessed l (for_mode 0) text o' meta alds cite r t m ->
  o' = for_mode 0 /\ meta = false /\ alds = false /\ incl m ever /\
  ((forall x r t, In x ever -> fst (l_text l x (for_mode 0) r t) = None) -> t = text /\ m = []).
Proof.
  intro P. pose proof (made_runs l _ _ _ _ _ _ _ _ _ P) as Mr.
  destruct P as [me al r0 t0 r1 t1 m1 bib r2 r3 t3 m3 A1 A2 A3 A4].
  assert (T : me = false /\ al = false /\ t0 = text).
  { assert (Pg : plugged l (for_mode 0) text = text) by reflexivity. rewrite Pg in A1.
    assert (M : forall ms, in_mode (for_mode 0) ms -> In 0%Z ms).
    { intros ms (k & E & I). vm_compute in E. now injection E as <-. }
    inversion A1 as [? N|? ? ? ? ? ? ? N|? ? ? ? ? ? ? ? ? ? N]; subst; auto; apply M in N; cbn in N; intuition discriminate. }
  destruct T as (-> & -> & ->).
  assert (Ew : with_cites l (for_mode 0) false r0 = for_mode 0) by reflexivity. rewrite Ew in *.
  split; [reflexivity|]. split; [reflexivity|]. split; [reflexivity|]. split.
  - intros x I. apply Mr in I. now apply commonmark_runs in I.
  - intro Q. assert (E : t1 = text /\ m1 = []).
    { inversion A2 as [|? ? t' r' W|? ? t' r' c W]; subst; auto; apply commonmark_runs in W; unfold ever in W; cbn in W; intuition discriminate. }
    destruct E as [-> ->].
    destruct (quiet_steps _ _ _ _ _ _ _ _ _ (fun x r t _ W => Q x r t (commonmark_runs _ _ _ W)) A4) as [-> ->]. auto.
Qed.
End Quiet.

(** ** Words shared by model and specification *)
Lemma words o :
  (format_is 1 o = true <-> o OutputFormat = Vn 1) /\
  (format_other o = true <-> exists n, o OutputFormat = Vn n /\ (2 <= n <= 11)%Z) /\
  (kramdown_like o = true <-> in_mode o [3; 4]%Z) /\
  (sheets_given o = true <-> exists x n, o StylesheetPaths = Vl (Some x) /\ o StylesheetCount = Vn n /\ (0 < n)%Z) /\
  (forall x, sheet_list o = Some x <-> o StylesheetPaths = Vl (Some x)) /\
  (forall n, o StylesheetCount = Vn n -> sheet_count o = Z.to_nat n) /\
  (forall v, some_list v = true <-> exists x, v = Vl (Some x)) /\
  (forall v, some_str v = true <-> exists x, v = Vs (Some x)) /\
  (forall lit t, found lit t = true <-> exists a b, t = a ++ lit ++ b).
Proof.
  split.
  { unfold format_is. destruct (o OutputFormat) as [|n| |]; try (split; discriminate). rewrite Z.eqb_eq. split; congruence. }
  split.
  { unfold format_other. destruct (o OutputFormat) as [|n| |]; try (split; [discriminate|intros (k & F & _); discriminate]).
    rewrite Bool.andb_true_iff, !Z.leb_le. split; [intro H; exists n; auto|intros (k & F & H); injection F as ->; exact H]. }
  split; [apply kramdown_in|]. split.
  { unfold sheets_given, sheet_list, sheet_count. destruct (o StylesheetPaths) as [| | |[x|]];
      try (split; [discriminate|intros (y & k & F & _); discriminate]).
    destruct (o StylesheetCount) as [|n| |]; try (split; [discriminate|intros (y & k & _ & F & _); discriminate]).
    rewrite Nat.ltb_lt. split.
    - intro H. exists x, n. split; [reflexivity|]. split; [reflexivity|]. lia.
    - intros (y & k & _ & F & H). injection F as ->. lia. }
  split.
  { intro x. unfold sheet_list. destruct (o StylesheetPaths); split; congruence. }
  split; [intros n E; unfold sheet_count; now rewrite E|]. split.
  { intro v. destruct v as [| | |[x|]]; cbn; split; try discriminate; eauto; intros (y & F); discriminate. }
  split.
  { intro v. destruct v as [| |[x|]|]; cbn; split; try discriminate; eauto; intros (y & F); discriminate. }
  intros lit t. unfold found. destruct (strstr lit t) as [i|] eqn:E.
  - split; [intros _|reflexivity]. now apply strstr_some in E as (a & b & E & _); exists a, b.
  - split; [discriminate|]. intros (a & b & ->). elim (strstr_none lit _ E a b eq_refl).
Qed.
