(** Proofs about M_Toc: markers. *)
From Verif Require Import Base BaseL Dec M_Toc S_Toc.

(** ** Searching *)
Lemma strstr_cut lit s i : strstr lit s = Some i ->
  firstn i s ++ lit ++ skipn (i + length lit) s = s /\ i + length lit <= length s.
Proof.
  revert i. induction s as [|c s IH]; intros i H; cbn [strstr] in H.
  - destruct (starts lit []) eqn:E; [|discriminate]. injection H as <-. apply starts_spec in E as (r & E).
    destruct lit; [|discriminate]. cbn. auto.
  - destruct (starts lit (c :: s)) eqn:E.
    + injection H as <-. apply starts_spec in E as (r & E). rewrite E. cbn [firstn app Nat.add].
      rewrite skipn_app, skipn_all, Nat.sub_diag, app_length. cbn. split; [reflexivity|lia].
    + destruct (strstr lit s) as [j|] eqn:S0; [|discriminate]. injection H as <-. destruct (IH j eq_refl) as [A L].
      cbn [firstn app Nat.add skipn length]. split; [now rewrite A|lia].
Qed.
Lemma strstr_prefix lit m b i : strstr lit m = Some i -> strstr lit (m ++ b) = Some i.
Proof.
  revert i. induction m as [|c m IH]; intros i H; cbn [strstr app] in *.
  - destruct (starts lit []) eqn:E; [|discriminate]. destruct lit; [|discriminate]. injection H as <-. destruct b; reflexivity.
  - destruct (starts lit (c :: m)) eqn:E.
    + apply starts_spec in E as (r & E). injection H as <-.
      assert (X : starts lit (c :: m ++ b) = true) by (change (c :: m ++ b) with ((c :: m) ++ b); rewrite E, <- app_assoc; apply starts_app).
      now rewrite X.
    + destruct (strstr lit m) as [j|] eqn:S0; [|discriminate]. injection H as <-. rewrite (IH j eq_refl).
      destruct (starts lit (c :: m ++ b)) eqn:X; [|reflexivity]. exfalso.
      (* the literal would lie inside [c :: m] *)
      apply strstr_cut in S0 as [_ L]. apply starts_spec in X as (r & X).
      assert (Y : c :: m = lit ++ skipn (length lit) (c :: m)).
      { assert (firstn (length lit) (c :: m) = lit).
        { transitivity (firstn (length lit) ((c :: m) ++ b)).
          - rewrite firstn_app. replace (length lit - length (c :: m)) with 0 by (cbn; lia). now rewrite app_nil_r.
          - change ((c :: m) ++ b) with (c :: m ++ b). rewrite X, firstn_app, firstn_all, Nat.sub_diag. cbn. apply app_nil_r. }
        rewrite <- H at 1. symmetry. apply firstn_skipn. }
      rewrite Y, starts_app in E. discriminate.
Qed.
Lemma after_in lit m b s : after lit m = Some s -> after lit (m ++ b) = Some (s ++ b).
Proof.
  unfold after. destruct (strstr lit m) as [i|] eqn:E; [|discriminate]. intro H. injection H as <-.
  rewrite (strstr_prefix _ _ b _ E). apply strstr_cut in E as [_ L]. rewrite skipn_app.
  replace (i + length lit - length m) with 0 by lia. reflexivity.
Qed.
Lemma after_out lit m b s : after lit m = None -> after lit (m ++ b) = Some s -> exists p, b = p ++ s.
Proof.
  unfold after. destruct (strstr lit m) as [i|] eqn:E; [discriminate|]. intros _.
  destruct (strstr lit (m ++ b)) as [j|] eqn:F; [|discriminate]. intro H. injection H as <-.
  destruct (strstr_cut _ _ _ F) as [A L].
  destruct (Nat.le_gt_cases (length m) (j + length lit)) as [G|G].
  - rewrite skipn_app, skipn_all2 by assumption. exists (firstn (j + length lit - length m) b). symmetry. apply firstn_skipn.
  - exfalso. apply (strstr_none _ _ E (firstn j m) (skipn (j + length lit) m)).
    rewrite <- (firstn_skipn (j + length lit) m) at 1. rewrite (app_assoc _ lit). f_equal.
    assert (X : firstn (j + length lit) (m ++ b) = firstn j (m ++ b) ++ lit).
    { rewrite <- A at 1. rewrite app_assoc, firstn_app. 
      assert (LJ : length (firstn j (m ++ b) ++ lit) = j + length lit) by (rewrite app_length, firstn_length; lia).
      rewrite LJ, Nat.sub_diag, firstn_all2 by lia. cbn. apply app_nil_r. }
    rewrite !firstn_app in X. replace (j + length lit - length m) with 0 in X by lia.
    replace (j - length m) with 0 in X by lia. cbn in X. now rewrite !app_nil_r in X.
Qed.

(** ** Levels *)
Definition no_digit (s : str) : Prop := forall c, In c s -> isdigit c = false.
Lemma first_digit_none s : no_digit s -> first_digit s = [].
Proof.
  unfold first_digit. induction s as [|c s IH]; intro H; [reflexivity|]. cbn. rewrite (H c) by now left. cbn.
  destruct (span (fun c => negb (isdigit c)) s) eqn:E. cbn in *. apply IH. intros d I. apply H. now right.
Qed.
Lemma no_digit_suffix p s : no_digit (p ++ s) -> no_digit s.
Proof. intros H c I. apply H. apply in_or_app. now right. Qed.
Lemma first_digit_app s b : no_digit b ->
  first_digit (s ++ b) = match first_digit s with [] => [] | r => r ++ b end.
Proof.
  intro H. induction s as [|c s IH].
  - cbn. rewrite first_digit_none by assumption. reflexivity.
  - unfold first_digit in *. cbn. destruct (isdigit c) eqn:E; cbn; [reflexivity|].
    destruct (span _ (s ++ b)) eqn:X, (span (fun c => negb (isdigit c)) s) eqn:Y. cbn in *. exact IH.
Qed.
(** [ends s]: the last byte of [s] is neither a digit nor white space. *)
Definition ends (s : str) : Prop := exists a c, s = a ++ [c] /\ isdigit c = false /\ isspace c = false.
Lemma number_at_app s b : ends s -> number_at (s ++ b) = number_at s.
Proof.
  intros (a & c & -> & D & _). unfold number_at. f_equal. induction a as [|d a IH]; cbn; [now rewrite D|].
  destruct (isdigit d); [|reflexivity]. destruct (span isdigit ((a ++ [c]) ++ b)), (span isdigit (a ++ [c])). cbn in *. now rewrite IH.
Qed.
Lemma first_digit_suffix s : exists p, s = p ++ first_digit s.
Proof.
  unfold first_digit. destruct (span _ s) as [p r] eqn:E. exists p. exact (span_app _ _ _ _ E).
Qed.
Lemma ends_suffix p s : ends (p ++ s) -> s <> [] -> ends s.
Proof.
  intros (a & c & E & D & W) N. destruct (exists_last N) as (a' & c' & ->). exists a', c'.
  rewrite app_assoc in E. apply app_inj_tail in E as [_ ->]. auto.
Qed.
Lemma level_app lit m b d : no_digit b -> ends m -> level_after lit (m ++ b) d = level_after lit m d.
Proof.
  intros Hb Hm. unfold level_after. destruct (after lit m) as [s|] eqn:E.
  - rewrite (after_in _ _ b _ E), first_digit_app by assumption.
    destruct (first_digit s) as [|x r] eqn:F; [reflexivity|]. change (number_at ((x :: r) ++ b) = number_at (x :: r)). apply number_at_app.
    destruct (first_digit_suffix s) as (p & P). rewrite F in P.
    unfold after in E. destruct (strstr lit m) as [i|]; [|discriminate]. injection E as E.
    apply (ends_suffix (firstn (i + length lit) m ++ p)); [|discriminate]. rewrite <- app_assoc, <- P, <- E, firstn_skipn. exact Hm.
  - destruct (after lit (m ++ b)) as [s|] eqn:F; [|reflexivity]. destruct (after_out _ _ _ _ E F) as (p & ->).
    rewrite first_digit_none; [reflexivity|]. now apply no_digit_suffix in Hb.
Qed.
Lemma spaces_app s b : ends s -> snd (span isspace (s ++ b)) = snd (span isspace s) ++ b /\ ends (snd (span isspace s)).
Proof.
  intros (a & c & -> & D & W). induction a as [|d a IH]; cbn.
  - rewrite W. cbn. split; [reflexivity|]. exists [], c. auto.
  - destruct (isspace d) eqn:X; cbn.
    + destruct (span isspace ((a ++ [c]) ++ b)), (span isspace (a ++ [c])). cbn in *. exact IH.
    + split; [reflexivity|]. exists (d :: a), c. auto.
Qed.
Lemma at_digit_none b : no_digit b -> isdigit (at_ b 0) = false.
Proof. intro H. destruct b; [reflexivity|]. apply H. now left. Qed.
Lemma range_app m b : no_digit b -> ends m -> marker_range (m ++ b) = marker_range m.
Proof.
  intros Hb Hm. unfold marker_range. rewrite !level_app by assumption.
  destruct (after (B ":") m) as [s|] eqn:E.
  - rewrite (after_in _ _ b _ E).
    assert (SX : exists q, m = q ++ s).
    { unfold after in E. destruct (strstr (B ":") m) as [i|]; [|discriminate]. injection E as <-.
      exists (firstn (i + length (B ":")) m). symmetry. apply firstn_skipn. }
    destruct SX as (q & SX). destruct s as [|c0 s0] eqn:Es.
    + cbn [app span snd]. 
      destruct (span isspace b) as [u v] eqn:SB. cbn [snd]. pose proof (span_app _ _ _ _ SB) as Q. rewrite Q in Hb.
      rewrite (at_digit_none v) by (now apply no_digit_suffix in Hb). reflexivity.
    + rewrite <- Es in *. assert (ES : ends s) by (apply (ends_suffix q); [now rewrite <- SX|rewrite Es; discriminate]).
      destruct (spaces_app s b ES) as [-> ES']. set (t := snd (span isspace s)) in *. clearbody t.
      assert (A0 : at_ (t ++ b) 0 = at_ t 0) by (destruct ES' as (a & c & -> & _); destruct a; reflexivity).
      rewrite A0, number_at_app by assumption. destruct (isdigit (at_ t 0)); [|reflexivity]. f_equal.
      destruct (after (B "-") t) as [d|] eqn:F.
      * rewrite (after_in _ _ b _ F).
        assert (DX : exists q', t = q' ++ d).
        { unfold after in F. destruct (strstr (B "-") t) as [i|]; [|discriminate]. injection F as <-.
          exists (firstn (i + length (B "-")) t). symmetry. apply firstn_skipn. }
        destruct DX as (q' & DX). destruct d as [|d0 d1] eqn:Ed.
        { cbn [app]. rewrite (at_digit_none b Hb). reflexivity. }
        rewrite <- Ed in *. assert (ED : ends d) by (apply (ends_suffix q'); [now rewrite <- DX|rewrite Ed; discriminate]).
        rewrite number_at_app by assumption.
        assert (A1 : at_ (d ++ b) 0 = at_ d 0) by (rewrite Ed; reflexivity). now rewrite A1.
      * destruct (after (B "-") (t ++ b)) as [d|] eqn:G; [|reflexivity]. destruct (after_out _ _ _ _ F G) as (p & ->).
        rewrite (at_digit_none d); [reflexivity|]. now apply no_digit_suffix in Hb.
  - destruct (after (B ":") (m ++ b)) as [s|] eqn:F; [|reflexivity]. destruct (after_out _ _ _ _ E F) as (p & ->).
    destruct (span isspace s) as [u v] eqn:SB. cbn [snd]. pose proof (span_app _ _ _ _ SB) as ->.
    rewrite app_assoc in Hb. rewrite (at_digit_none v) by (now apply no_digit_suffix in Hb). reflexivity.
Qed.
Lemma number_digits ds r : forallb isdigit ds = true -> (forall c q, r = c :: q -> isdigit c = false) ->
  number_at (ds ++ r) = digits_value ds.
Proof.
  intros D N. unfold number_at. f_equal. induction ds as [|c ds IH]; cbn.
  - destruct r as [|c r]; [reflexivity|]. cbn. now rewrite (N c r).
  - cbn in D. apply Bool.andb_true_iff in D as [-> D]. specialize (IH D). destruct (span isdigit (ds ++ r)). cbn in *. now rewrite IH.
Qed.
Lemma after_first c a b : ~ In c a -> after [c] (a ++ c :: b) = Some b.
Proof.
  intro H. unfold after. assert (E : strstr [c] (a ++ c :: b) = Some (length a)).
  { induction a as [|d a IH]; cbn.
    - now rewrite ceq_refl.
    - assert (ceq c d = false) as -> by (apply ceq_neq; intros <-; apply H; now left). cbn.
      rewrite IH; [reflexivity|]. intro I. apply H. now right. }
  rewrite E. f_equal. rewrite skipn_app, skipn_all2 by (cbn; lia). cbn. replace (length a + 1 - length a) with 1 by lia. reflexivity.
Qed.
Lemma digits_not ds c : forallb isdigit ds = true -> isdigit c = false -> ~ In c ds.
Proof. intros D N I. rewrite forallb_forall in D. rewrite (D c I) in N. discriminate. Qed.
(** A range given in the marker is used whatever follows. *)
Lemma range_given a ds es b : ~ In ":"%char a -> forallb isdigit ds = true -> forallb isdigit es = true -> ds <> [] -> es <> [] ->
  (forall c q, b = c :: q -> isdigit c = false) ->
  marker_range (a ++ B ":" ++ ds ++ B "-" ++ es ++ b) = (digits_value ds, digits_value es).
Proof.
  intros A D E ND NE Hb. unfold marker_range. change (B ":") with [":"%char] at 1.
  change (a ++ B ":" ++ ds ++ B "-" ++ es ++ b) with (a ++ ":"%char :: (ds ++ "-"%char :: es ++ b)).
  rewrite after_first by assumption.
  assert (X : snd (span isspace (ds ++ "-"%char :: es ++ b)) = ds ++ "-"%char :: es ++ b).
  { destruct ds as [|c ds]; [congruence|]. cbn. assert (isspace c = false) as ->; [|reflexivity].
    cbn in D. apply Bool.andb_true_iff in D as [D _]. unfold isdigit, between in D. unfold isspace, between. apply Bool.not_true_iff_false. intro H.
    apply Bool.orb_true_iff in H as [H|H]; [lia|]. apply ceq_eq in H. subst c. vm_compute in D. discriminate. }
  rewrite X. assert (Y : isdigit (at_ (ds ++ "-"%char :: es ++ b) 0) = true).
  { destruct ds as [|c ds]; [congruence|]. cbn in D. now apply Bool.andb_true_iff in D as [D _]. }
  rewrite Y. rewrite number_digits by (auto; intros c q H; injection H as <- _; reflexivity).
  change (B "-") with ["-"%char]. rewrite after_first by (now apply digits_not).
  assert (Z : isdigit (at_ (es ++ b) 0) = true).
  { destruct es as [|c es]; [congruence|]. cbn in E. now apply Bool.andb_true_iff in E as [E _]. }
  rewrite Z, number_digits by assumption. reflexivity.
Qed.
