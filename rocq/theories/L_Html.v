(** Proofs about the HTML filters: tag spacing, newlines between tags, blank
    table lines. *)
From Verif Require Import Base BaseL L_Trans M_Html S_Html.

(** ** Tag spacing *)
Definition unspace_p (acc : str) : str :=
  match rev acc with c :: r => if ceq c SP then rev r else acc | [] => acc end.
Fixpoint clean_p (s : str) (in_tag last : bool) (acc : str) : str :=
  match s with
  | [] => acc
  | c :: s' =>
      if opens s then clean_p s' true false (acc ++ [c])
      else if ceq c ">" then clean_p s' false false ((if last then unspace_p acc else acc) ++ [c])
      else if in_tag && isspace c then clean_p s' in_tag true (if last then acc else acc ++ [SP])
      else clean_p s' in_tag false (acc ++ [c])
  end.

Lemma unspace_out w : w_out (unspace w) = unspace_p (w_out w).
Proof. unfold unspace, unspace_p. destruct (rev (w_out w)) as [|c r]; [reflexivity|]. destruct (ceq c SP); reflexivity. Qed.
Lemma unspace_fits w : fits w -> fits (unspace w) /\ w_cap (unspace w) = w_cap w /\ length (w_out (unspace w)) <= length (w_out w).
Proof.
  intros F. unfold unspace. destruct (rev (w_out w)) as [|c r] eqn:E; [split; auto|].
  destruct (ceq c SP); [|split; auto]. cbn [w_cap w_out].
  assert (L : length (rev r) <= length (w_out w)).
  { rewrite <- (rev_length (w_out w)), E, rev_length. cbn [length]. lia. }
  split; [|split; [reflexivity|exact L]]. destruct F as [F1 F2]. split; cbn [w_oob w_out w_cap]; [exact F1|lia].
Qed.

Lemma clean_loop_ok s : forall it last w, fits w -> length (w_out w) + length s < w_cap w ->
  fits (clean_loop s it last w) /\ w_out (clean_loop s it last w) = clean_p s it last (w_out w).
Proof.
  assert (St : forall c w, fits w -> length (w_out w) + 1 <= w_cap w -> fits (w_store [c] w)).
  { intros c w F L. apply store_fits; [exact F|]. cbn [length]. lia. }
  induction s as [|c s IH]; intros it last w F L; cbn [clean_loop clean_p].
  - split; [apply term_fits; [exact F|cbn [length] in L; lia]|reflexivity].
  - cbn [length] in L.
    assert (Step : forall it' last' w', fits w' -> w_cap w' = w_cap w -> length (w_out w') <= length (w_out w) + 1 ->
      fits (clean_loop s it' last' w') /\ w_out (clean_loop s it' last' w') = clean_p s it' last' (w_out w')).
    { intros it' last' w' F' C' L'. apply IH; [exact F'|lia]. }
    destruct (opens (c :: s)).
    { apply Step; [apply St; [exact F|lia]|reflexivity|]. cbn [w_store w_out]. rewrite app_length. cbn [length]. lia. }
    destruct (ceq c ">").
    { destruct last.
      - destruct (unspace_fits w F) as (U1 & U2 & U3).
        destruct (Step false false (w_store [c] (unspace w))) as [S1 S2].
        + apply St; [exact U1|lia].
        + exact U2.
        + cbn [w_store w_out]. rewrite app_length. cbn [length]. lia.
        + split; [exact S1|]. rewrite S2. cbn [w_store w_out]. rewrite unspace_out. reflexivity.
      - apply Step; [apply St; [exact F|lia]|reflexivity|]. cbn [w_store w_out]. rewrite app_length. cbn [length]. lia. }
    destruct (it && isspace c).
    { destruct last; (apply Step; [|reflexivity|]); try apply St; auto; try lia;
        cbn [w_store w_out]; rewrite ?app_length; cbn [length]; lia. }
    apply Step; [apply St; [exact F|lia]|reflexivity|]. cbn [w_store w_out]. rewrite app_length. cbn [length]. lia.
Qed.

Lemma clean_spacing_ok html :
  w_oob (clean_spacing html) = false /\ w_out (clean_spacing html) = clean_p html false false [].
Proof.
  destruct (clean_loop_ok html false false (w_new (length html + 1) 0)) as [F O]; [apply new_fits|cbn [w_new w_out w_cap length]; lia|].
  split; [apply F|exact O].
Qed.

Lemma opens_spec s : opens s = true <-> exists b, s = "<"%char :: b /\ forall c r, b = c :: r -> ~ special c.
Proof.
  unfold opens, special. rewrite andb_true_iff, negb_true_iff, !orb_false_iff. split.
  - intros [H1 [[H2 H3] H4]]. apply ceq_eq in H1. destruct s as [|c b]; [discriminate|]. cbn [at_ nth] in *. subst c.
    exists b. split; [reflexivity|]. intros c r ->. cbn [at_ nth] in *.
    apply ceq_neq in H2, H3, H4. cbn [In]. intuition.
  - intros (b & -> & H). split; [reflexivity|]. destruct b as [|c r]; [auto|]. specialize (H c r eq_refl). cbn [In at_ nth] in *.
    rewrite !ceq_neq. intuition.
Qed.

Lemma clean_text t r : forall acc, text_ok t -> clean_p (t ++ r) false false acc = clean_p r false false (acc ++ t).
Proof.
  induction t as [|c t IH]; intros acc T; cbn [app]; [rewrite app_nil_r; reflexivity|].
  assert (T' : text_ok t) by (intros a b E; apply (T (c :: a) b); rewrite E; reflexivity).
  cbn [clean_p]. destruct (opens (c :: t ++ r)) eqn:O.
  - apply opens_spec in O as (b & E & N). injection E as -> E.
    destruct (T [] t eq_refl) as (d & b' & -> & S). cbn [app] in E. destruct (N d (b' ++ r) (eq_sym E) S).
  - rewrite <- (app_assoc acc [c] t) || idtac. cbn [andb].
    destruct (ceq c ">"); rewrite IH by exact T'; rewrite <- app_assoc; reflexivity.
Qed.

Lemma clean_word u r : Forall (fun c => isspace c = false /\ c <> ">"%char) u -> u <> [] ->
  forall l acc, clean_p (u ++ r) true l acc = clean_p r true false (acc ++ u).
Proof.
  induction 1 as [|c u [H1 H2] F IH]; intros N l acc; [congruence|]. cbn [app clean_p].
  assert (Z : clean_p (u ++ r) true false (acc ++ [c]) = clean_p r true false (acc ++ c :: u)).
  { destruct u as [|d u]; [reflexivity|]. rewrite IH by discriminate. rewrite <- app_assoc. reflexivity. }
  destruct (opens (c :: u ++ r)); [exact Z|]. rewrite (proj2 (ceq_neq c ">") H2), H1. exact Z.
Qed.
Lemma space_not c : isspace c = true -> c <> "<"%char /\ c <> ">"%char.
Proof. intros H. split; intros ->; discriminate. Qed.
Lemma clean_more g r : white g -> forall acc, clean_p (g ++ r) true true acc = clean_p r true true acc.
Proof.
  induction 1 as [|c g H F IH]; intros acc; [reflexivity|]. cbn [app clean_p]. destruct (space_not c H) as [N1 N2].
  replace (opens (c :: g ++ r)) with false.
  - rewrite (proj2 (ceq_neq c ">") N2), H. apply IH.
  - symmetry. unfold opens. cbn [at_ nth]. rewrite (proj2 (ceq_neq c "<") N1). reflexivity.
Qed.
Lemma clean_gap g r acc : white g ->
  clean_p (g ++ r) true false acc = clean_p r true (match g with [] => false | _ => true end) (acc ++ one g).
Proof.
  intros W. destruct W as [|c g H F]; cbn [app one]; [rewrite app_nil_r; reflexivity|].
  destruct (space_not c H) as [N1 N2]. cbn [clean_p].
  replace (opens (c :: g ++ r)) with false.
  - rewrite (proj2 (ceq_neq c ">") N2), H. apply clean_more, F.
  - symmetry. unfold opens. cbn [at_ nth]. rewrite (proj2 (ceq_neq c "<") N1). reflexivity.
Qed.
Lemma clean_words ws r :
  Forall (fun gw : str * str => white (fst gw) /\ Forall (fun c => isspace c = false /\ c <> ">"%char) (snd gw)) ws ->
  Forall (fun gw : str * str => snd gw <> []) ws ->
  forall acc, clean_p (concat (map (fun gw => fst gw ++ snd gw) ws) ++ r) true false acc =
              clean_p r true false (acc ++ concat (map (fun gw => one (fst gw) ++ snd gw) ws)).
Proof.
  induction ws as [|[g u] ws IH]; intros H1 H2 acc; cbn [map concat fst snd app]; [rewrite app_nil_r; reflexivity|].
  inversion H1 as [|? ? [A1 A2] H1']; inversion H2 as [|? ? A3 H2']; subst. cbn [fst snd] in *.
  rewrite <- !app_assoc. rewrite clean_gap by exact A1. rewrite clean_word by assumption.
  rewrite IH by assumption. rewrite <- !app_assoc. reflexivity.
Qed.
Lemma unspace_sp acc : unspace_p (acc ++ [SP]) = acc.
Proof. unfold unspace_p. rewrite rev_app_distr. cbn [rev app]. rewrite ceq_refl, rev_involutive. reflexivity. Qed.

Lemma clean_doc d : doc_ok d -> forall acc, clean_p (source d) false false acc = acc ++ cleaned d.
Proof.
  induction d as [t|t g|t g d IH]; intros OK acc; cbn [doc_ok source cleaned] in *.
  - rewrite <- (app_nil_r t) at 1. rewrite clean_text by exact OK. reflexivity.
  - destruct OK as (T & (G1 & G2 & G3) & O). rewrite clean_text by exact T. cbn [clean_p].
    assert (X : opens ("<"%char :: tag_source g) = true) by (apply opens_spec; eauto). rewrite X.
    unfold tag_source. rewrite clean_words by assumption.
    rewrite <- (app_nil_r (t_trail g)) at 1. rewrite clean_gap by exact G3. cbn [clean_p].
    unfold tag_words. rewrite <- !app_assoc. reflexivity.
  - destruct OK as (T & (G1 & G2 & G3) & O & D). rewrite clean_text by exact T. cbn [clean_p].
    assert (X : opens ("<"%char :: tag_source g ++ ">"%char :: source d) = true).
    { apply opens_spec. eexists. split; [reflexivity|]. intros c r E. destruct (tag_source g) as [|x s] eqn:TS.
      - cbn [app] in E. injection E as <- _. unfold special. cbn [In]. intuition discriminate.
      - injection E as <- _. exact (O x s TS). }
    rewrite X. unfold tag_source at 1. rewrite <- app_assoc. rewrite clean_words by assumption.
    rewrite clean_gap by exact G3. cbn [clean_p].
    change (opens (">"%char :: source d)) with false. rewrite ceq_refl. fold (tag_words g).
    destruct (t_trail g) as [|x y]; cbn [one].
    + rewrite app_nil_r, IH by exact D. rewrite <- !app_assoc. reflexivity.
    + rewrite unspace_sp, IH by exact D. rewrite <- !app_assoc. reflexivity.
Qed.

(** Every document has such a reading. *)
Lemma text_split s : exists t r, s = t ++ r /\ text_ok t /\ (r = [] \/ opens r = true).
Proof.
  induction s as [|c s (t & r & E & T & R)].
  - exists [], []. split; [reflexivity|]. split; [|left; reflexivity]. intros a b X. destruct a; discriminate.
  - destruct (opens (c :: s)) eqn:O.
    + exists [], (c :: s). split; [reflexivity|]. split; [|right; exact O]. intros a b X. destruct a; discriminate.
    + exists (c :: t), r. split; [rewrite E; reflexivity|]. split; [|exact R].
      intros a b X. destruct a as [|a0 a]; injection X as X1 X2; [|apply (T a b X2)]. subst c b.
      destruct s as [|d s].
      { unfold opens in O. cbn in O. discriminate. }
      assert (S : special d).
      { destruct (in_dec Ascii.ascii_dec d ["/"; "!"; "?"]%char) as [I|I]; [exact I|].
        assert (opens ("<"%char :: d :: s) = true); [|congruence]. apply opens_spec. eexists. split; [reflexivity|].
        intros c r' Y. injection Y as <- _. exact I. }
      destruct t as [|d' t].
      * cbn [app] in E. destruct R as [->|R]; [discriminate|]. rewrite <- E in R. apply opens_spec in R as (b & Y & _).
        injection Y as -> _. unfold special in S. cbn [In] in S. intuition discriminate.
      * injection E as <- _. eauto.
Qed.
Lemma tag_split b : ~ In ">"%char b -> exists t, tag_ok t /\ tag_source t = b.
Proof.
  induction b as [|c b IH]; intros N.
  - exists (Tag [] []). split; [|reflexivity]. split; [constructor|split; constructor].
  - destruct IH as ([ws tr] & (H1 & H2 & H3) & E); [intros I; apply N; right; exact I|].
    assert (Nc : c <> ">"%char) by (intros ->; apply N; left; reflexivity).
    unfold tag_source in E. cbn [t_words t_trail] in *. destruct (isspace c) eqn:S.
    + destruct ws as [|[g u] ws].
      * exists (Tag [] (c :: tr)). split; [|cbn in E |- *; unfold tag_source; cbn; rewrite <- E; reflexivity].
        split; [constructor|split; [constructor|constructor; assumption]].
      * exists (Tag ((c :: g, u) :: ws) tr). inversion H1 as [|? ? [A1 A2] H1']; inversion H2; subst. cbn [fst snd] in *.
        split.
        -- split; [constructor; [split; [constructor; assumption|assumption]|assumption]|].
           split; [constructor; assumption|assumption].
        -- unfold tag_source. reflexivity.
    + destruct ws as [|[[|x g] u] ws].
      * exists (Tag [([], [c])] tr). split; [|unfold tag_source; cbn in E |- *; rewrite E; reflexivity].
        split; [constructor; [split; [constructor|repeat constructor; assumption]|constructor]|].
        split; [constructor; [discriminate|constructor]|assumption].
      * exists (Tag (([], c :: u) :: ws) tr). inversion H1 as [|? ? [A1 A2] H1']; inversion H2; subst. cbn [fst snd] in *.
        split.
        -- split; [constructor; [split; [constructor|constructor; auto]|assumption]|].
           split; [constructor; [discriminate|assumption]|assumption].
        -- unfold tag_source. reflexivity.
      * exists (Tag (([], [c]) :: (x :: g, u) :: ws) tr). split.
        -- split; [constructor; [split; [constructor|constructor; [auto|constructor]]|assumption]|].
           split; [constructor; [discriminate|assumption]|assumption].
        -- unfold tag_source. cbn [t_words t_trail map concat fst snd app] in *. rewrite E. reflexivity.
Qed.
Lemma doc_exists n : forall s, length s <= n -> exists d, doc_ok d /\ source d = s.
Proof.
  induction n as [|n IH]; intros s L.
  - destruct s; [|cbn [length] in L; lia]. exists (End []). split; [|reflexivity]. intros a b X. destruct a; discriminate.
  - destruct (text_split s) as (t & r & -> & T & [->|O]).
    + exists (End t). split; [exact T|]. cbn [source]. rewrite app_nil_r. reflexivity.
    + apply opens_spec in O as (b & -> & O). destruct (in_dec Ascii.ascii_dec ">"%char b) as [I|I].
      * apply in_split in I as I'. clear I'.
        assert (X : exists b1 b2, b = b1 ++ ">"%char :: b2 /\ ~ In ">"%char b1).
        { clear -I. induction b as [|c b IHb]; [destruct I|]. destruct (Ascii.ascii_dec c ">"%char) as [->|Nc].
          - exists [], b. split; [reflexivity|]. intros [].
          - destruct I as [->|I]; [congruence|]. destruct (IHb I) as (b1 & b2 & -> & N). exists (c :: b1), b2.
            split; [reflexivity|]. intros [Y|Y]; [congruence|exact (N Y)]. }
        destruct X as (b1 & b2 & -> & N). destruct (tag_split b1 N) as (g & G & E).
        destruct (IH b2) as (d & D & E2).
        { rewrite !app_length in L. cbn [length] in L. rewrite app_length in L. cbn [length] in L. lia. }
        exists (Closed t g d). cbn [doc_ok source]. rewrite E, E2. split; [|reflexivity].
        split; [exact T|]. split; [exact G|]. split; [|exact D]. intros c x Y. rewrite E in Y. apply (O c (x ++ ">"%char :: b2)).
        rewrite Y. reflexivity.
      * destruct (tag_split b I) as (g & G & E). exists (Open t g). cbn [doc_ok source]. rewrite E. split; [|reflexivity].
        split; [exact T|]. split; [exact G|]. intros c x Y. apply (O c x). rewrite <- E. exact Y.
Qed.

(** Cleaning again changes nothing. *)
Definition tidy_words (ws : list (str * str)) : list (str * str) := map (fun gw => (one (fst gw), snd gw)) ws.
Fixpoint tidy (d : doc) : doc :=
  match d with
  | End s => End s
  | Open s t => Open s (Tag (tidy_words (t_words t)) (one (t_trail t)))
  | Closed s t d => Closed s (Tag (tidy_words (t_words t)) []) (tidy d)
  end.
Lemma one_white g : white (one g).
Proof. destruct g; [constructor|]. constructor; [reflexivity|constructor]. Qed.
Lemma one_one g : one (one g) = one g.
Proof. destruct g; reflexivity. Qed.
Lemma tidy_tag_ok t tr : tag_ok t -> white tr -> tag_ok (Tag (tidy_words (t_words t)) tr).
Proof.
  intros (H1 & H2 & H3) W. unfold tidy_words. split; [|split]; cbn [t_words t_trail]; [| |exact W].
  - apply Forall_map. eapply Forall_impl; [|exact H1]. intros [g u] [A1 A2]. cbn [fst snd] in *. split; [apply one_white|exact A2].
  - apply Forall_map. exact H2.
Qed.
Lemma tidy_source t tr : tag_source (Tag (tidy_words (t_words t)) tr) = tag_words t ++ tr.
Proof.
  unfold tag_source, tag_words, tidy_words. cbn [t_words t_trail]. rewrite map_map. reflexivity.
Qed.
Lemma tidy_tag_words t tr : tag_words (Tag (tidy_words (t_words t)) tr) = tag_words t.
Proof.
  unfold tag_words, tidy_words. cbn [t_words]. rewrite map_map. cbn [fst snd]. f_equal. apply map_ext. intros [g u]. cbn [fst snd].
  rewrite one_one. reflexivity.
Qed.
Lemma tidy_opening t tr : tag_ok t -> opening t -> (tr = [] \/ tr = one (t_trail t)) -> opening (Tag (tidy_words (t_words t)) tr).
Proof.
  intros (H1 & H2 & H3) O Tr c r E. rewrite tidy_source in E. unfold tag_words in E. unfold opening, tag_source in O.
  destruct t as [[|[g u] ws] t]; cbn [t_words t_trail map concat fst snd app] in *.
  - destruct Tr as [->| ->]; [discriminate|]. destruct t as [|x t]; [discriminate|]. injection E as <- <-.
    unfold special. cbn [In]. intuition discriminate.
  - destruct g as [|x g]; cbn [one app] in *.
    + destruct u as [|y u]; [inversion H2; cbn [snd] in *; congruence|]. cbn [app] in *. injection E as <- _.
      eapply O. reflexivity.
    + injection E as <- _. unfold special. cbn [In]. intuition discriminate.
Qed.
Lemma tidy_ok d : doc_ok d -> doc_ok (tidy d) /\ source (tidy d) = cleaned d /\ cleaned (tidy d) = cleaned d.
Proof.
  induction d as [t|t g|t g d IH]; intros OK; cbn [tidy doc_ok source cleaned] in *.
  - auto.
  - destruct OK as (T & G & O). split; [|split].
    + split; [exact T|]. split; [apply tidy_tag_ok; [exact G|apply one_white]|]. apply tidy_opening; auto.
    + rewrite tidy_source. reflexivity.
    + rewrite tidy_tag_words. cbn [t_trail]. rewrite one_one. reflexivity.
  - destruct OK as (T & G & O & D). destruct (IH D) as (I1 & I2 & I3). split; [|split].
    + split; [exact T|]. split; [apply tidy_tag_ok; [exact G|constructor]|]. split; [|exact I1]. apply tidy_opening; auto.
    + rewrite tidy_source, I2, app_nil_r. reflexivity.
    + rewrite tidy_tag_words, I3. reflexivity.
Qed.

(** Visible bytes stay. *)
Definition visible (c : ascii) : bool := negb (isspace c).
Lemma filter_white g : white g -> filter visible g = [].
Proof.
  induction 1 as [|c g H F IH]; [reflexivity|]. cbn [filter]. unfold visible at 1. rewrite H. exact IH.
Qed.
Lemma visible_words t : tag_ok t -> filter visible (tag_source t) = filter visible (tag_words t).
Proof.
  intros (H1 & _ & H3). unfold tag_source, tag_words. rewrite filter_app, (filter_white _ H3), app_nil_r.
  induction H1 as [|[g u] ws [A1 A2] F IH]; [reflexivity|]. cbn [map concat fst snd]. rewrite !filter_app, IH.
  cbn [fst] in A1. rewrite (filter_white _ A1), (filter_white _ (one_white g)). reflexivity.
Qed.
Lemma visible_doc d : doc_ok d -> filter visible (source d) = filter visible (cleaned d).
Proof.
  induction d as [t|t g|t g d IH]; intros OK; cbn [doc_ok source cleaned] in *; [reflexivity| |].
  - destruct OK as (T & G & O). rewrite !filter_app. cbn [filter]. rewrite !filter_app, (visible_words g G).
    rewrite (filter_white _ (one_white _)), app_nil_r. reflexivity.
  - destruct OK as (T & G & O & D). rewrite !filter_app. cbn [filter]. rewrite !filter_app, (visible_words g G).
    cbn [filter]. rewrite (IH D). reflexivity.
Qed.

Lemma clean_exact d : doc_ok d -> w_oob (clean_spacing (source d)) = false /\ w_out (clean_spacing (source d)) = cleaned d.
Proof. intros D. destruct (clean_spacing_ok (source d)) as [O ->]. split; [exact O|]. apply (clean_doc d D []). Qed.
Lemma doc_of s : exists d, doc_ok d /\ source d = s.
Proof. exact (doc_exists (length s) s (le_n _)). Qed.
Lemma clean_idempotent html : w_out (clean_spacing (w_out (clean_spacing html))) = w_out (clean_spacing html).
Proof.
  destruct (doc_of html) as (d & D & <-). rewrite (proj2 (clean_exact d D)).
  destruct (tidy_ok d D) as (T1 & T2 & T3). rewrite <- T2 at 1. rewrite (proj2 (clean_exact _ T1)). exact T3.
Qed.
Lemma clean_visible html : filter visible (w_out (clean_spacing html)) = filter visible html.
Proof.
  destruct (doc_of html) as (d & D & <-). rewrite (proj2 (clean_exact d D)). symmetry. apply visible_doc, D.
Qed.

(** ** Newlines between tags *)

(** Whether the walk ends on a > that it takes for a tag end. *)
Fixpoint odd_end (s : str) : bool :=
  match s with
  | [] => false
  | c :: s' => if ceq c ">" then match s' with [] => true | _ :: s'' => odd_end s'' end else odd_end s'
  end.

Lemma odd_end_gap g s : Forall gap_byte g -> odd_end (g ++ "<"%char :: s) = odd_end ("<"%char :: s).
Proof.
  induction 1 as [|c g H F IH]; [reflexivity|]. cbn [app odd_end].
  rewrite (proj2 (ceq_neq c ">")); [exact IH|]. intros ->. unfold gap_byte in H. cbn [In] in H. intuition discriminate.
Qed.
Lemma gap_in c : gap c = true <-> gap_byte c.
Proof. unfold gap, gap_byte. rewrite !orb_true_iff, !ceq_eq. cbn [In]. intuition. Qed.

Lemma span_gap s g look : span gap s = (g, look) -> s = g ++ look /\ Forall gap_byte g.
Proof.
  intros E. split; [eapply span_app, E|]. apply span_all in E. apply Forall_forall. intros c I.
  rewrite forallb_forall in E. apply gap_in, E, I.
Qed.

Lemma odd_skip g s : Forall gap_byte g -> odd_end (">"%char :: g ++ "<"%char :: s) = odd_end ("<"%char :: s).
Proof.
  intros F. destruct F as [|c g H F]; [reflexivity|]. cbn [app odd_end]. rewrite ceq_refl.
  pose proof (odd_end_gap g s F) as X. cbn [odd_end] in X. exact X.
Qed.

Lemma filter_shorter (f : ascii -> bool) (l : str) : length (filter f l) <= length l.
Proof. induction l as [|c l IH]; [cbn; lia|]. cbn [filter]. destruct (f c); cbn [length]; lia. Qed.

(** With the gap decision spelled out. *)
Inductive walk : str -> str -> Prop :=
| wk_nil : walk [] []
| wk_byte c s o : c <> ">"%char -> walk s o -> walk (c :: s) (c :: o)
| wk_gap g s o : wide g -> walk ("<"%char :: s) ("<"%char :: o) ->
    walk (">"%char :: g ++ "<"%char :: s) (">"%char :: repeat NL (Nat.min 2 (newlines g)) ++ "<"%char :: o)
| wk_pair d s o : (forall g b, d :: s = g ++ "<"%char :: b -> ~ wide g) -> walk s o ->
    walk (">"%char :: d :: s) (">"%char :: d :: o).

Lemma newlines_pos g : 1 <= length (filter newline g) -> Forall gap_byte g -> wide g.
Proof. intros H F. split; [exact F|exact H]. Qed.

Lemma lt_head s o : walk ("<"%char :: s) o -> exists o', o = "<"%char :: o'.
Proof. intros W. inversion W; eauto. Qed.

Lemma gap_no_lt g : Forall gap_byte g -> ~ In "<"%char g.
Proof.
  intros F I. rewrite Forall_forall in F. specialize (F _ I). unfold gap_byte in F. cbn [In] in F. intuition discriminate.
Qed.
Lemma split_at_lt (g g' a b : str) : ~ In "<"%char g -> ~ In "<"%char g' ->
  g ++ "<"%char :: a = g' ++ "<"%char :: b -> g = g' /\ a = b.
Proof.
  revert g'. induction g as [|c g IH]; intros [|c' g'] N N' E; cbn [app] in E.
  - injection E as <-. auto.
  - injection E as E _. destruct N'. left. symmetry. exact E.
  - injection E as E _. destruct N. left. exact E.
  - injection E as <- E. destruct (IH g') as [-> ->]; auto.
    + intros I. apply N. right. exact I.
    + intros I. apply N'. right. exact I.
Qed.

Lemma collapse_walk fuel : forall s w, length s < fuel -> fits w -> length (w_out w) + length s < w_cap w ->
  (odd_end s = true /\ collapse_loop fuel s w = Some Past) \/
  (odd_end s = false /\ exists w' o, collapse_loop fuel s w = Some (Collapsed w') /\ fits w' /\
     w_out w' = w_out w ++ o /\ walk s o).
Proof.
  induction fuel as [|fuel IH]; intros s w L F C; [lia|]. cbn [collapse_loop]. destruct s as [|c s].
  { right. split; [reflexivity|]. exists (w_term w), []. cbn [length] in C. split; [reflexivity|].
    split; [apply term_fits; [exact F|lia]|]. split; [cbn [w_term w_out]; rewrite app_nil_r; reflexivity|constructor]. }
  cbn [length] in L, C. destruct (ceq c ">") eqn:Ec.
  - apply ceq_eq in Ec. subst c. destruct (span gap s) as [g look] eqn:Sp. apply span_gap in Sp as SG. destruct SG as [Es Fg].
    assert (F1 : fits (w_store [">"%char] w)) by (apply store_fits; [exact F|cbn [length]; lia]).
    assert (L1 : length (w_out (w_store [">"%char] w)) = length (w_out w) + 1).
    { cbn [w_store w_out]. rewrite app_length. reflexivity. }
    destruct (Nat.ltb 0 (length (filter newline g)) && ceq (at_ look 0) "<") eqn:D.
    + apply andb_true_iff in D as [D1 D2]. apply Nat.ltb_lt in D1. apply ceq_eq in D2.
      destruct look as [|x look]; [discriminate|]. cbn [at_ nth] in D2. subst x.
      assert (W : wide g) by (apply newlines_pos; [lia|exact Fg]).
      set (k := if Nat.leb 2 (length (filter newline g)) then 2 else 1).
      assert (K : k = Nat.min 2 (newlines g)).
      { unfold k, newlines. fold newline. change (fun c => ceq c NL || ceq c CR) with newline.
        destruct (Nat.leb_spec 2 (length (filter newline g))); lia. }
      assert (Kg : k <= length g).
      { rewrite K. unfold newlines. pose proof (filter_shorter newline g).
        change (fun c => ceq c NL || ceq c CR) with newline. lia. }
      subst s. rewrite app_length in L, C. cbn [length] in L, C.
      assert (F2 : fits (w_store (repeat NL k) (w_store [">"%char] w))).
      { apply store_fits; [exact F1|]. rewrite repeat_length, L1. cbn [w_store w_cap]. lia. }
      destruct (IH ("<"%char :: look) (w_store (repeat NL k) (w_store [">"%char] w))) as [[O E]|[O (w' & o & E & F' & Eo & W')]].
      * cbn [length]. lia.
      * exact F2.
      * cbn [w_store w_cap w_out length]. rewrite !app_length, repeat_length. cbn [length]. lia.
      * left. split; [|exact E]. rewrite odd_skip by exact Fg. exact O.
      * right. split; [rewrite odd_skip by exact Fg; exact O|].
        destruct (lt_head _ _ W') as (o' & ->).
        exists w', (">"%char :: repeat NL k ++ "<"%char :: o'). split; [exact E|]. split; [exact F'|]. split.
        -- rewrite Eo. cbn [w_store w_out]. rewrite <- !app_assoc. reflexivity.
        -- rewrite K. apply wk_gap; assumption.
    + destruct s as [|d s]; [left; split; reflexivity|]. cbn [length] in L, C.
      destruct (IH s (w_store [d] (w_store [">"%char] w))) as [[O E]|[O (w' & o & E & F' & Eo & W')]].
      * lia.
      * apply store_fits; [exact F1|]. rewrite L1. cbn [length w_store w_cap]. lia.
      * cbn [w_store w_cap w_out]. rewrite !app_length. cbn [length]. lia.
      * left. split; [cbn [odd_end]; rewrite ceq_refl; exact O|exact E].
      * right. split; [cbn [odd_end]; rewrite ceq_refl; exact O|]. exists w', (">"%char :: d :: o).
        split; [exact E|]. split; [exact F'|]. split.
        -- rewrite Eo. cbn [w_store w_out]. rewrite <- !app_assoc. reflexivity.
        -- apply wk_pair; [|exact W']. intros g' b Eg [Wg Wn].
           (* the span is g' *)
           assert (X : span gap (d :: s) = (g', "<"%char :: b)).
           { rewrite Eg. clear -Wg. induction Wg as [|x g' H F IHg]; [reflexivity|]. cbn [app span].
             rewrite (proj2 (gap_in x) H), IHg. reflexivity. }
           rewrite X in Sp. injection Sp as -> <-. apply andb_false_iff in D as [D|D]; [|discriminate].
           apply Nat.ltb_ge in D. unfold newlines in Wn. change (fun c => ceq c NL || ceq c CR) with newline in Wn. lia.
  - destruct (IH s (w_store [c] w)) as [[O E]|[O (w' & o & E & F' & Eo & W')]].
    + lia.
    + apply store_fits; [exact F|cbn [length]; lia].
    + cbn [w_store w_cap w_out]. rewrite app_length. cbn [length]. lia.
    + left. split; [cbn [odd_end]; rewrite Ec; exact O|exact E].
    + right. split; [cbn [odd_end]; rewrite Ec; exact O|]. exists w', (c :: o). split; [exact E|]. split; [exact F'|]. split.
      * rewrite Eo. cbn [w_store w_out]. rewrite <- app_assoc. reflexivity.
      * apply wk_byte; [|exact W']. apply ceq_neq, Ec.
Qed.

Lemma walk_compacted s o : walk s o -> compacted s o.
Proof.
  induction 1 as [|c s o N W IH|g s o G W IH|d s o N W IH]; [constructor|constructor; exact IH|apply cp_gap; assumption|].
  apply cp_byte, cp_byte, IH.
Qed.

Lemma odd_end_run k : forall a, (forall b, a <> b ++ [">"%char]) -> odd_end (a ++ repeat ">"%char k) = Nat.odd k.
Proof.
  assert (R : forall n k, k <= n -> odd_end (repeat ">"%char k) = Nat.odd k).
  { induction n as [|n IH]; intros j L; [replace j with 0 by lia; reflexivity|].
    destruct j as [|[|j]]; [reflexivity|reflexivity|]. cbn [repeat odd_end]. rewrite ceq_refl. rewrite IH by lia.
    rewrite !Nat.odd_succ, Nat.even_succ. reflexivity. }
  assert (G : forall n a, length a <= n -> (forall b, a <> b ++ [">"%char]) -> odd_end (a ++ repeat ">"%char k) = Nat.odd k).
  { induction n as [|n IH]; intros a L H.
    - destruct a; [|cbn [length] in L; lia]. apply (R k k). lia.
    - destruct a as [|c a]; [apply (R k k); lia|]. cbn [length] in L. cbn [app odd_end]. destruct (ceq c ">") eqn:E.
      + apply ceq_eq in E. subst c. destruct a as [|d a]; [destruct (H [] eq_refl)|]. cbn [app length] in *.
        apply IH; [lia|]. intros b ->. apply (H (">"%char :: d :: b)). reflexivity.
      + apply IH; [lia|]. intros b ->. apply (H (c :: b)). reflexivity. }
  intros a. apply (G (length a) a (le_n _)).
Qed.

Lemma compacted_head c s o : compacted (c :: s) o -> exists o', o = c :: o'.
Proof. intros W. inversion W; eauto. Qed.
Lemma walk_head c s o : walk (c :: s) o -> exists o', o = c :: o'.
Proof. intros W. inversion W; eauto. Qed.

Lemma wide_no_gt g : Forall gap_byte g -> ~ In ">"%char g.
Proof.
  intros F I. rewrite Forall_forall in F. specialize (F _ I). unfold gap_byte in F. cbn [In] in F. intuition discriminate.
Qed.
(** A gap of the output that was not made is a gap of the input. *)
Lemma walk_gap_back g : Forall gap_byte g -> forall s b, walk s (g ++ "<"%char :: b) -> exists b', s = g ++ "<"%char :: b'.
Proof.
  induction 1 as [|c g H F IH]; intros s b W; cbn [app] in W.
  - inversion W; subst. eexists. reflexivity.
  - assert (c <> ">"%char) by (intros ->; unfold gap_byte in H; cbn [In] in H; intuition discriminate).
    inversion W as [|c0 s0 o0 Nc W0 E1 E2| |]; subst; try congruence.
    destruct (IH _ _ W0) as (b' & ->). exists b'. reflexivity.
Qed.

Lemma no_double_tail c s : no_double (c :: s) -> no_double s.
Proof. intros N a b ->. apply (N (c :: a) b). reflexivity. Qed.
Lemma no_double_app a s : no_double (a ++ s) -> no_double s.
Proof. intros N x b ->. apply (N (a ++ x) b). rewrite <- app_assoc. reflexivity. Qed.

Lemma walk_compact s o : walk s o -> no_double s -> compact o.
Proof.
  induction 1 as [|c s o N W IH|g s o G W IH|d s o N W IH]; intros ND.
  - intros a g b E. destruct a; discriminate.
  - specialize (IH (no_double_tail _ _ ND)). intros [|x a] g b E Wg.
    + injection E as E _. congruence.
    + injection E as _ E. exact (IH a g b E Wg).
  - assert (ND' : no_double ("<"%char :: s)).
    { apply no_double_tail in ND. apply no_double_app in ND. exact ND. }
    assert (K : exists k, Nat.min 2 (newlines g) = k /\ 1 <= k <= 2) by (destruct G as [_ G]; eexists; split; [reflexivity|lia]).
    destruct K as (k & -> & K).
    specialize (IH ND'). intros [|x a] g' b E Wg; cbn [app] in E.
    + injection E as E. symmetry in E. apply split_at_lt in E as [-> _]; [destruct k as [|[|[|k]]]; cbn [repeat]; auto; lia| |].
      * apply gap_no_lt, Wg.
      * intros I. apply repeat_spec in I. discriminate.
    + injection E as _ E.
      assert (X : exists a', a ++ ">"%char :: g' ++ "<"%char :: b = repeat NL k ++ a' ++ ">"%char :: g' ++ "<"%char :: b /\ "<"%char :: o = a' ++ ">"%char :: g' ++ "<"%char :: b).
      { revert a E. clear. induction k as [|k IHk]; intros a E; cbn [repeat app] in *.
        - exists a. auto.
        - destruct a as [|y a]; [discriminate|]. injection E as <- E. destruct (IHk a E) as (a' & E1 & E2).
          exists a'. cbn [app]. rewrite E1. auto. }
      destruct X as (a' & _ & E'). exact (IH a' g' b E' Wg).
  - assert (Nd : d <> ">"%char) by (intros ->; apply (ND [] s); reflexivity).
    assert (ND' : no_double s) by (apply no_double_tail, no_double_tail in ND; exact ND).
    specialize (IH ND'). intros [|x [|y a]] g b E Wg; cbn [app] in E.
    + injection E as E. destruct g as [|z g].
      * destruct Wg as [_ Wg]. cbn in Wg. lia.
      * cbn [app] in E. injection E as <- E. pose proof Wg as [Fg _]. inversion Fg as [|? ? Hd Fg']; subst.
        destruct (walk_gap_back g Fg' s b W) as (b' & ->). destruct (N (d :: g) b' eq_refl Wg).
    + injection E as _ E _. congruence.
    + injection E as _ _ E. exact (IH a g b E Wg).
Qed.

Lemma collapse_ok html k : ends_with k html ->
  (Nat.odd k = true -> collapse html = Some Past) /\
  (Nat.odd k = false -> exists w, collapse html = Some (Collapsed w) /\ w_oob w = false /\
     compacted html (w_out w) /\ (no_double html -> compact (w_out w))).
Proof.
  intros (a & E & N). unfold collapse.
  assert (O : odd_end html = Nat.odd k) by (rewrite E; apply odd_end_run, N).
  destruct (collapse_walk (S (length html)) html (w_new (length html + 1) 0)) as [[O' R]|[O' (w & o & R & F & Eo & W)]].
  - lia.
  - apply new_fits.
  - cbn [w_new w_out w_cap length]. lia.
  - split; [intros _; exact R|congruence].
  - split; [congruence|]. intros _. exists w. split; [exact R|]. split; [apply F|]. cbn [w_new w_out app] in Eo.
    rewrite Eo. split; [apply walk_compacted, W|]. apply walk_compact, W.
Qed.
Lemma ends_with_exists html : exists k, ends_with k html.
Proof.
  induction html as [|c s (k & a & E & H)] using rev_ind.
  - exists 0, []. split; [reflexivity|]. intros b E. destruct b; discriminate.
  - destruct (Ascii.ascii_dec c ">"%char) as [->|N].
    + exists (S k), a. split; [|exact H]. rewrite E, <- app_assoc. f_equal. rewrite <- repeat_cons. reflexivity.
    + exists 0, (s ++ [c]). split; [cbn [repeat]; rewrite app_nil_r; reflexivity|]. intros b X. apply app_inj_tail in X as [_ X]. congruence.
Qed.
Lemma compacted_visible s o : compacted s o -> filter visible s = filter visible o.
Proof.
  induction 1 as [|c s o W IH|g s o [G _] W IH]; [reflexivity| |].
  - cbn [filter]. rewrite IH. reflexivity.
  - cbn [filter]. rewrite !filter_app, IH.
    rewrite (filter_white g), (filter_white (repeat NL _)); [reflexivity| |].
    + apply Forall_forall. intros c I. apply repeat_spec in I. subst c. reflexivity.
    + eapply Forall_impl; [|exact G]. intros c I. unfold gap_byte in I. cbn [In] in I.
      destruct I as [<-|[<-|[<-|[<-|[]]]]]; reflexivity.
Qed.

(** ** Blank lines of tables *)
Lemma table_open_spec s : table_open s = true <-> opens_table s.
Proof.
  unfold table_open, opens_table. rewrite andb_true_iff, orb_true_iff, !ceq_eq. split.
  - intros [H1 H2]. apply starts_spec in H1 as (r & ->). cbn [B list_ascii_of_string app at_ nth] in H2.
    destruct r as [|c r]; cbn [nth] in H2; [destruct H2 as [H2|H2]; discriminate|].
    exists c, r. split; [reflexivity|]. cbn [In]. destruct H2 as [->| ->]; auto.
  - intros (c & r & -> & I). split; [apply starts_app|]. cbn [B list_ascii_of_string app at_ nth].
    cbn [In] in I. destruct I as [<-|[<-|[]]]; auto.
Qed.
Lemma table_close_spec s : table_close s = true <-> closes_table s.
Proof. unfold table_close, closes_table. apply starts_spec. Qed.

Fixpoint scan (p : str) (t : bool) : bool :=
  match p with [] => t | c :: p' => scan p' (table_state p t) end.
Definition no_close (p : str) : Prop := forall x y, p = x ++ y -> ~ closes_table y.
Lemma no_close_cons c p : no_close (c :: p) <-> ~ closes_table (c :: p) /\ no_close p.
Proof.
  unfold no_close. split.
  - intros H. split; [apply (H [] _ eq_refl)|]. intros x y ->. apply (H (c :: x) y eq_refl).
  - intros [H1 H2] [|a x] y E; [cbn [app] in E; subst y; exact H1|]. injection E as _ E. exact (H2 x y E).
Qed.
Lemma opens_not_closes s : opens_table s -> ~ closes_table s.
Proof. intros (c & r & -> & _) (r' & E). discriminate. Qed.
Lemma inside_cons c p : inside (c :: p) <-> (opens_table (c :: p) /\ no_close (c :: p)) \/ inside p.
Proof.
  unfold inside. split.
  - intros ([|x a] & b & E & O & N); cbn [app] in E; [subst b; auto|]. injection E as _ ->. right. exists a, b. auto.
  - intros [[O N]|(a & b & -> & O & N)]; [exists [], (c :: p); auto|exists (c :: a), b; auto].
Qed.
Lemma scan_spec p : forall t, scan p t = true <-> inside p \/ (t = true /\ no_close p).
Proof.
  induction p as [|c p IH]; intros t; cbn [scan].
  - split.
    + intros ->. right. split; [reflexivity|]. intros x y E (r & ->). destruct x; discriminate.
    + intros [(a & b & E & (c & r & -> & _) & _)|[-> _]]; [destruct a; discriminate|reflexivity].
  - rewrite IH, inside_cons, no_close_cons. unfold table_state.
    destruct (table_open (c :: p)) eqn:O.
    + apply table_open_spec in O. pose proof (opens_not_closes _ O). intuition.
    + assert (NO : ~ opens_table (c :: p)) by (intros X; apply table_open_spec in X; congruence).
      destruct (table_close (c :: p)) eqn:C.
      * apply table_close_spec in C. intuition discriminate.
      * assert (NC : ~ closes_table (c :: p)) by (intros X; apply table_close_spec in X; congruence). intuition.
Qed.
Lemma scan_inside p : scan p false = true <-> inside p.
Proof. rewrite scan_spec. intuition discriminate. Qed.

(** Tags do not reach over a line end. *)
Lemma starts_cut lit : ~ In NL lit -> forall (x s : str), starts lit (x ++ NL :: s) = starts lit x.
Proof.
  induction lit as [|a lit IH]; intros N x s; [destruct x; reflexivity|].
  destruct x as [|c x]; cbn [app starts].
  - rewrite (proj2 (ceq_neq a NL)); [reflexivity|]. intros ->. apply N. left. reflexivity.
  - rewrite IH; [reflexivity|]. intros I. apply N. right. exact I.
Qed.
Lemma state_cut (x s : str) t : table_state (x ++ NL :: s) t = table_state x t.
Proof.
  unfold table_state, table_open, table_close. rewrite !starts_cut by (cbn; intuition discriminate).
  destruct (starts (B "<table") x) eqn:S; [|reflexivity]. cbn [andb].
  apply starts_length in S. cbn [length B list_ascii_of_string] in S. unfold at_.
  destruct (Nat.lt_total 6 (length x)) as [L|[L|L]]; [|  |lia].
  - rewrite app_nth1 by exact L. reflexivity.
  - rewrite app_nth2 by lia. replace (6 - length x) with 0 by lia. cbn [nth]. rewrite (nth_overflow x) by lia. reflexivity.
Qed.
Lemma scan_app (a b : str) : forall t, scan (a ++ NL :: b) t = scan b (scan (a ++ [NL]) t).
Proof.
  induction a as [|c a IH]; intros t; cbn [app scan].
  - reflexivity.
  - rewrite IH. f_equal. f_equal. change (c :: a ++ NL :: b) with ((c :: a) ++ NL :: b).
    change (c :: a ++ [NL]) with ((c :: a) ++ [NL]). rewrite !state_cut. reflexivity.
Qed.
(** The state behind a whole line depends on the lines before it only. *)
Definition line_ends (pre : str) : Prop := pre = [] \/ exists p, pre = p ++ [NL].
Lemma scan_line pre l : line_ends pre -> scan (pre ++ l ++ [NL]) false = scan (l ++ [NL]) (scan pre false).
Proof.
  intros [->|(p & ->)]; [reflexivity|]. rewrite <- app_assoc. cbn [app]. apply scan_app.
Qed.

Definition blankc (c : ascii) : bool := ceq c SP || ceq c TAB || ceq c CR.
Lemma blank_line_spec l : forallb blankc l = true <-> blank_line l.
Proof.
  unfold blank_line. rewrite forallb_forall, Forall_forall. split; intros H c I; specialize (H c I); unfold blankc in *.
  - rewrite !orb_true_iff, !ceq_eq in H. cbn [In]. intuition.
  - rewrite !orb_true_iff, !ceq_eq. cbn [In] in H. intuition.
Qed.

Lemma blank_loop_line l s : ~ In NL l -> forall t ln bl w,
  blank_loop (l ++ NL :: s) t ln bl w =
  let t' := scan (l ++ [NL]) t in
  if t' && (bl && forallb blankc l) then blank_loop s t' [] true w
  else blank_loop s t' [] true (w_store (ln ++ l ++ [NL]) w).
Proof.
  induction l as [|c l IH]; intros N t ln bl w.
  - cbn [app blank_loop scan forallb]. rewrite ceq_refl, andb_true_r. reflexivity.
  - cbn [app blank_loop]. rewrite (proj2 (ceq_neq c NL)) by (intros ->; apply N; left; reflexivity).
    rewrite IH by (intros I; apply N; right; exact I). cbn [app scan forallb].
    assert (E : table_state (c :: l ++ NL :: s) t = table_state (c :: l ++ [NL]) t).
    { change (c :: l ++ NL :: s) with ((c :: l) ++ NL :: s). change (c :: l ++ [NL]) with ((c :: l) ++ [NL]).
      rewrite !state_cut. reflexivity. }
    rewrite E. fold (blankc c). rewrite <- app_assoc. cbn [app].
    replace ((if blankc c then bl else false) && forallb blankc l) with (bl && (blankc c && forallb blankc l)); [reflexivity|].
    destruct (blankc c), bl; reflexivity.
Qed.
Lemma blank_loop_last l : ~ In NL l -> forall t ln bl w,
  blank_loop l t ln bl w = w_term (w_store (ln ++ l) w).
Proof.
  induction l as [|c l IH]; intros N t ln bl w; [cbn [blank_loop]; rewrite app_nil_r; reflexivity|].
  cbn [blank_loop]. rewrite (proj2 (ceq_neq c NL)) by (intros ->; apply N; left; reflexivity).
  rewrite IH by (intros I; apply N; right; exact I). rewrite <- app_assoc. reflexivity.
Qed.

Lemma blank_scan l t : forallb blankc l = true -> scan (l ++ [NL]) t = t.
Proof.
  revert t. induction l as [|c l IH]; intros t H; [reflexivity|]. cbn [forallb] in H. apply andb_true_iff in H as [H1 H2].
  cbn [app scan]. rewrite IH by exact H2. unfold table_state, table_open, table_close.
  assert (N : c <> "<"%char) by (intros ->; discriminate). apply ceq_neq in N. rewrite ceq_sym in N.
  cbn [starts B list_ascii_of_string]. rewrite N. reflexivity.
Qed.

Lemma first_nl (s : str) : ~ In NL s \/ exists l r, s = l ++ NL :: r /\ ~ In NL l.
Proof.
  induction s as [|c s IH]; [left; intros []|]. destruct (Ascii.ascii_dec c NL) as [->|N].
  - right. exists [], s. split; [reflexivity|]. intros [].
  - destruct IH as [IH|(l & r & -> & IH)].
    + left. intros [X|X]; [congruence|exact (IH X)].
    + right. exists (c :: l), r. split; [reflexivity|]. intros [X|X]; [congruence|exact (IH X)].
Qed.

Lemma blank_loop_ok n : forall s pre w, length s <= n -> line_ends pre -> fits w -> length (w_out w) + length s < w_cap w ->
  let w' := blank_loop s (scan pre false) [] true w in
  fits w' /\ exists o, w_out w' = w_out w ++ o /\ trimmed pre s o.
Proof.
  induction n as [|n IH]; intros s pre w L P F C w'; subst w'.
  - destruct s; [|cbn [length] in L; lia]. cbn [blank_loop length] in *. split.
    + apply term_fits; [apply store_fits; [exact F|cbn [length]; lia]|]. cbn [w_store w_out w_cap]. rewrite app_nil_r. lia.
    + exists []. split; [reflexivity|]. apply tr_last. intros [].
  - destruct (first_nl s) as [N|(l & r & -> & N)].
    + rewrite blank_loop_last by exact N. cbn [app]. split.
      * apply term_fits; [apply store_fits; [exact F|lia]|]. cbn [w_store w_out w_cap]. rewrite app_length. lia.
      * exists s. split; [reflexivity|]. apply tr_last, N.
    + rewrite blank_loop_line by exact N. cbn [andb app].
      rewrite app_length in L, C. cbn [length] in L, C.
      assert (P' : line_ends (pre ++ l ++ [NL])) by (right; exists (pre ++ l); rewrite <- app_assoc; reflexivity).
      rewrite <- (scan_line pre l P).
      destruct (scan (pre ++ l ++ [NL]) false && forallb blankc l) eqn:D.
      * apply andb_true_iff in D as [D1 D2].
        destruct (IH r (pre ++ l ++ [NL]) w) as (F' & o & Eo & T); auto; [lia|lia|]. split; [exact F'|].
        exists o. split; [exact Eo|]. apply tr_drop; [apply blank_line_spec, D2| |exact T].
        apply scan_inside. rewrite scan_line in D1 by exact P. rewrite blank_scan in D1 by exact D2. exact D1.
      * destruct (IH r (pre ++ l ++ [NL]) (w_store (l ++ [NL]) w)) as (F' & o & Eo & T); auto; [lia| | |].
        -- apply store_fits; [exact F|]. rewrite app_length. cbn [length]. lia.
        -- cbn [w_store w_out w_cap]. rewrite !app_length. cbn [length]. lia.
        -- split; [exact F'|]. exists (l ++ NL :: o). split.
           ++ rewrite Eo. cbn [w_store w_out]. rewrite <- !app_assoc. reflexivity.
           ++ apply tr_keep; [exact N| |exact T]. intros [Bl In_]. apply blank_line_spec in Bl. apply scan_inside in In_.
              rewrite scan_line in D by exact P. rewrite blank_scan in D by exact Bl. rewrite Bl, In_ in D. discriminate.
Qed.
Lemma blank_lines_ok html : w_oob (remove_blank_lines html) = false /\ trimmed [] html (w_out (remove_blank_lines html)).
Proof.
  unfold remove_blank_lines.
  destruct (blank_loop_ok (length html) html [] (w_new (length html + 1) 0)) as (F & o & E & T);
    [lia|left; reflexivity|apply new_fits|cbn [w_new w_out w_cap length]; lia|].
  cbn [scan] in *. split; [apply F|]. rewrite E. exact T.
Qed.

(** The lines determine the result. *)
Lemma line_unique (l l' s s' : str) : ~ In NL l -> ~ In NL l' -> l ++ NL :: s = l' ++ NL :: s' -> l = l' /\ s = s'.
Proof.
  revert l'. induction l as [|c l IH]; intros [|c' l'] N N' E; cbn [app] in E.
  - injection E as <-. auto.
  - injection E as E _. destruct N'. left. symmetry. exact E.
  - injection E as E _. destruct N. left. exact E.
  - injection E as <- E. destruct (IH l') as [-> ->]; auto; intros I; [apply N|apply N']; right; exact I.
Qed.
Lemma blank_no_nl l : blank_line l -> ~ In NL l.
Proof.
  intros H I. unfold blank_line in H. rewrite Forall_forall in H. specialize (H _ I). cbn [In] in H. intuition discriminate.
Qed.
Ltac lines_eq :=
  match goal with
  | E : _ ++ NL :: _ = _ ++ NL :: _ |- _ => apply line_unique in E; [destruct E; subst|auto using blank_no_nl|auto using blank_no_nl]
  end; auto using blank_no_nl.
Lemma trimmed_fun pre s o : trimmed pre s o -> forall o', trimmed pre s o' -> o = o'.
Proof.
  induction 1 as [pre l N|pre l s o Bl I T IH|pre l s o N K T IH]; intros o' T'.
  - inversion T' as [? ? N'|? l' s' ? Bl' I' T1|? l' s' ? N' K' T1]; subst; [reflexivity| |];
      destruct N; apply in_or_app; right; left; reflexivity.
  - inversion T' as [? l0 N'|? l' s' ? Bl' I' T1|? l' s' ? N' K' T1]; subst.
    + destruct N'. apply in_or_app. right. left. reflexivity.
    + lines_eq.
    + lines_eq. destruct K'. auto.
  - inversion T' as [? l0 N'|? l' s' ? Bl' I' T1|? l' s' ? N' K' T1]; subst.
    + destruct N'. apply in_or_app. right. left. reflexivity.
    + lines_eq. destruct K. auto.
    + lines_eq. rewrite (IH _ T1). reflexivity.
Qed.
