(** Lemmas on heading texts and ids. *)
From Verif Require Import Base BaseL M_Toc S_Toc M_HeadIds S_HeadIds.
From Verif Require L_Highlight L_Abbr L_Toc2 L_Toc3.

(** ** The text of a heading *)
Definition known (p : piece) : str := match p with Txt s | Code s => s | Other _ => [] end.
Definition hw (w : wr) : Prop :=
  (w_cap w = 256 \/ w_cap w = 512) /\ length (w_out w) + w_rem w = w_cap w /\ w_oob w = false.
Lemma put_piece_known w p : put_piece w p = match p with Other _ => w | _ => put_literal (known p) w end.
Proof. destruct p; reflexivity. Qed.
Lemma put_literal_out s w : w_out (put_literal s w) = w_out w ++ s.
Proof. unfold put_literal. destruct (Nat.leb _ _); reflexivity. Qed.
Lemma text_out l : forall w, w_out (fold_left put_piece l w) = w_out w ++ concat (map known l).
Proof.
  induction l as [|p l IH]; intro w; cbn [fold_left map concat]; [now rewrite app_nil_r|]. rewrite IH, app_assoc. f_equal.
  destruct p; cbn [put_piece known]; rewrite ?put_literal_out, ?app_nil_r; reflexivity.
Qed.
Lemma literal_ok s w : hw w -> length (w_out w) + length s <= 511 -> hw (put_literal s w).
Proof.
  intros (C & L & O) H. unfold put_literal, hw. destruct (Nat.leb (w_rem w) (length s)) eqn:E.
  - apply Nat.leb_le in E. cbn [w_cap w_out w_rem w_oob w_set_rem w_store w_term]. rewrite app_length. repeat split; [now right|lia|]. rewrite O. destruct s; [reflexivity|]. apply Nat.ltb_ge. lia.
  - apply Nat.leb_gt in E. cbn [w_cap w_out w_rem w_oob w_set_rem w_store w_term]. rewrite app_length. repeat split; [exact C|lia|]. rewrite O. destruct s; [reflexivity|]. apply Nat.ltb_ge. lia.
Qed.
Lemma text_ok l : forall w, hw w -> length (w_out w) + length (concat (map known l)) <= 511 -> hw (fold_left put_piece l w).
Proof.
  induction l as [|p l IH]; intros w H L; [exact H|]. cbn [fold_left map concat] in *. rewrite app_length in L. apply IH.
  - destruct p; cbn [put_piece known] in *; try (apply literal_ok; [exact H|lia]). exact H.
  - destruct p; cbn [put_piece known] in *; rewrite ?put_literal_out, ?app_length; cbn [length] in L; lia.
Qed.
Lemma literal_cap s w : w_cap w <= 512 -> w_cap (put_literal s w) <= 512.
Proof. intro H. unfold put_literal. destruct (Nat.leb _ _); cbn [w_cap w_out w_rem w_oob w_set_rem w_store w_term]; lia. Qed.
Lemma text_cap l : forall w, w_cap w <= 512 -> w_cap (fold_left put_piece l w) <= 512.
Proof. induction l as [|p l IH]; intros w H; [exact H|]. cbn [fold_left]. apply IH. destruct p; cbn [put_piece]; auto using literal_cap. Qed.
Lemma heading_text_safe l : w_oob (heading_text l) = false <-> length (concat (map known l)) <= 511.
Proof.
  unfold heading_text. pose proof (text_out l (w_new 256 256)) as O. pose proof (text_cap l (w_new 256 256) ltac:(cbn [w_cap w_new]; lia)) as C.
  pose proof (text_ok l (w_new 256 256)) as K. set (w := fold_left put_piece l (w_new 256 256)) in *. cbn [w_out w_new app] in *. split.
  - intro H. cbn [w_oob w_term] in H. apply Bool.orb_false_iff in H. destruct H as [_ H]. apply Nat.leb_gt in H. rewrite O in H. lia.
  - intro H. destruct K as (Cw & L & Ob); [repeat split; auto|exact H|]. cbn [w_cap w_out w_rem w_oob w_set_rem w_store w_term]. rewrite Ob. cbn [orb]. apply Nat.leb_gt. rewrite O in *.
    destruct Cw as [E|E]; rewrite E in *; [|lia].
    assert (X : forall l w, w_cap (fold_left put_piece l w) = 256 -> w_cap w <= 512 -> 0 < w_rem w -> 0 < w_rem (fold_left put_piece l w)).
    { clear. induction l as [|p l IH]; intros w E C R; [exact R|]. cbn [fold_left] in *. apply IH; [exact E|destruct p; cbn [put_piece]; auto using literal_cap|].
      assert (Y : forall l w, w_cap w = 512 -> w_cap (fold_left put_piece l w) = 512).
      { clear. induction l as [|p l IH]; intros w E; [exact E|]. cbn [fold_left]. apply IH.
        destruct p; cbn [put_piece]; auto; unfold put_literal; destruct (Nat.leb _ _); cbn [w_cap w_set_rem w_store]; auto. }
      destruct p; cbn [put_piece] in *; [| |exact R];
        unfold put_literal in *; (destruct (Nat.leb (w_rem w) (length s)) eqn:B; [rewrite Y in E by reflexivity; discriminate|]);
        apply Nat.leb_gt in B; cbn [w_cap w_out w_rem w_oob w_set_rem w_store w_term]; lia. }
    specialize (X l (w_new 256 256) E). cbn [w_cap w_rem w_new] in X. fold w in X. lia.
Qed.
Lemma heading_text_out l : w_out (heading_text l) = concat (map known l).
Proof. unfold heading_text. cbn [w_cap w_out w_rem w_oob w_set_rem w_store w_term]. now rewrite text_out. Qed.

(** ** Ids in headings *)
Lemma split_last_some c s a b : split_last c s = Some (a, b) <-> s = a ++ c :: b /\ ~ In c b.
Proof.
  revert a b. induction s as [|d s IH]; intros a b; cbn [split_last].
  - split; [discriminate|]. intros [E _]. destruct a; discriminate.
  - destruct (split_last c s) as [[a' b']|] eqn:E.
    + destruct (proj1 (IH a' b') eq_refl) as [Es N]. split.
      * intro H. injection H as <- <-. split; [now rewrite Es|exact N].
      * intros [H N']. destruct a as [|x a]; injection H as -> H.
        -- exfalso. apply N'. rewrite <- H, Es. apply in_elt.
        -- assert (X := proj2 (IH a b) (conj H N')). injection X as <- <-. reflexivity.
    + destruct (ceq d c) eqn:D.
      * apply ceq_eq in D as ->. split.
        -- intro H. injection H as <- <-. split; [reflexivity|]. intro I. apply in_split in I. destruct I as (l1 & l2 & ->).
           clear - E. assert (X : forall l1, split_last c (l1 ++ c :: l2) <> None); [|now apply X in E].
           clear. intro l1. induction l1 as [|x l1 IH]; cbn [split_last app].
           ++ destruct (split_last c l2) as [[? ?]|]; [discriminate|]. now rewrite ceq_refl.
           ++ destruct (split_last c (l1 ++ c :: l2)) as [[? ?]|]; [discriminate|congruence].
        -- intros [H N]. destruct a as [|x a]; [injection H as ->; reflexivity|injection H as _ H].
           assert (X := proj2 (IH a b) (conj H N)). discriminate.
      * split; [discriminate|]. intros [H N]. destruct a as [|x a]; [injection H as -> _; now rewrite ceq_refl in D|injection H as _ H].
        assert (X := proj2 (IH a b) (conj H N)). discriminate.
Qed.
Lemma rtrim_spec s q : cut_space s q <-> rtrim s = q.
Proof.
  assert (X : forall s, cut_space s (rtrim s)).
  { clear. induction s as [|c s (e & E & F & L)]; cbn.
    - exists []. repeat split; [constructor|]. intros r c H. destruct r; discriminate.
    - destruct (rtrim s) as [|d r] eqn:R.
      + cbn in E. subst e. destruct (isspace c) eqn:C.
        * exists (c :: s). repeat split; [now constructor|]. intros r d H. destruct r; discriminate.
        * exists s. repeat split; [exact F|]. intros r d H. destruct r as [|? [|]]; try discriminate. injection H as <-. exact C.
      + exists e. repeat split; [now rewrite E at 1|exact F|]. intros r' d' H. destruct r' as [|x r']; [discriminate|].
        injection H as _ H. eapply L. exact H. }
  split; [|intros <-; apply X].
  intros (e & E & F & L). destruct (X s) as (e' & E' & F' & L'). revert E' L'. generalize (rtrim s) as q'. intros q' E' L'. subst s.
  apply app_eq_app in E'. destruct E' as (l & [[-> H]|[-> H]]).
  - destruct l as [|c l _] using rev_ind; [now rewrite app_nil_r|]. exfalso.
    specialize (L (q' ++ l) c ltac:(now rewrite app_assoc)).
    subst e'. apply Forall_app in F'. destruct F' as [F' _]. apply Forall_app in F'. destruct F' as [_ F']. inversion F'. congruence.
  - destruct l as [|c l _] using rev_ind; [now rewrite app_nil_r|]. exfalso.
    specialize (L' (q ++ l) c ltac:(now rewrite app_assoc)).
    subst e. apply Forall_app in F. destruct F as [F _]. apply Forall_app in F. destruct F as [_ F]. inversion F. congruence.
Qed.
Lemma only_space_spec s : only_space s = true <-> Forall (fun c => isspace c = true) s.
Proof.
  unfold only_space. induction s as [|c s IH]; cbn; [split; auto|]. destruct (isspace c) eqn:C.
  - destruct (span isspace s) as [a b]. cbn in *. rewrite IH. split; [intro; now constructor|intro H; now inversion H].
  - cbn. split; [discriminate|]. intro H. inversion H. congruence.
Qed.

(** ** Ids written in headings *)
Lemma not_in_space c e : isspace c = false -> Forall (fun c => isspace c = true) e -> ~ In c e.
Proof. intros C F I. rewrite Forall_forall in F. apply F in I. congruence. Qed.
Lemma mmd_spec text q i : mmd_id text = Some (q, i) <->
  exists p e, text = p ++ B "[" ++ i ++ B "]" ++ e /\ cut_space p q /\ i <> [] /\ ~ In "["%char i /\ ~ In "]"%char i /\
    (forall r, i <> "%"%char :: r) /\ Forall (fun c => isspace c = true) e.
Proof.
  unfold mmd_id. split.
  - destruct (split_last "[" text) as [[a b]|] eqn:E; [|discriminate]. apply split_last_some in E. destruct E as [-> N].
    destruct (strchr "]" b) as [[|k]|] eqn:C; [discriminate| |discriminate]. apply strchr_some in C. destruct C as (i' & e & -> & L & N').
    destruct i' as [|x i']; [discriminate|]. injection L as L.
    change (at_ ((x :: i') ++ "]"%char :: e) 0) with x. destruct (ceq x "%") eqn:X; [discriminate|].
    replace (skipn (k + 2) ((x :: i') ++ "]"%char :: e)) with e; cycle 1.
    { symmetry. replace (k + 2) with (S (length (x :: i'))) by (cbn [length]; lia). apply L_Abbr.drop_app_S. }
    replace (firstn (S k) ((x :: i') ++ "]"%char :: e)) with (x :: i'); cycle 1.
    { symmetry. rewrite <- L. apply (L_Abbr.take_app (x :: i')). }
    destruct (only_space e) eqn:O; [|discriminate]. intro H. injection H as <- <-. exists a, e.
    split; [reflexivity|]. split; [now apply rtrim_spec|]. split; [discriminate|]. split; [intro I; apply N; apply in_or_app; now left|].
    split; [exact N'|]. split; [intros r H; injection H as -> _; discriminate|now apply only_space_spec].
  - intros (p & e & -> & T & Ni & N1 & N2 & Np & F).
    assert (E : split_last "[" (p ++ B "[" ++ i ++ B "]" ++ e) = Some (p, i ++ B "]" ++ e)).
    { apply split_last_some. split; [reflexivity|]. intro I. apply in_app_or in I. destruct I as [I|[I|I]]; [auto|discriminate|].
      revert I. now apply not_in_space. }
    rewrite E. change (B "]" ++ e) with ("]"%char :: e). rewrite L_Abbr.chr_first by assumption.
    destruct i as [|x i]; [congruence|]. cbn [length]. change (at_ ((x :: i) ++ "]"%char :: e) 0) with x.
    destruct (ceq x "%") eqn:X; [apply ceq_eq in X; subst x; now destruct (Np i)|].
    replace (length i + 2) with (S (length (x :: i))) by (cbn [length]; lia). rewrite L_Abbr.drop_app_S.
    rewrite (proj2 (only_space_spec e) F). change (S (length i)) with (length (x :: i)). rewrite L_Abbr.take_app.
    apply rtrim_spec in T. now rewrite T.
Qed.
Lemma kramdown_spec text q i : kramdown_id text = Some (q, i) <->
  exists p e, text = p ++ B "{#" ++ i ++ B "}" ++ e /\ cut_space p q /\ i <> [] /\ ~ In "{"%char i /\ ~ In "}"%char i /\
    Forall (fun c => isspace c = true) e.
Proof.
  unfold kramdown_id. split.
  - destruct (split_last "{" text) as [[a b]|] eqn:E; [|discriminate]. apply split_last_some in E. destruct E as [-> N].
    destruct (ceq (at_ b 0) "#") eqn:H; [|discriminate].
    destruct (strchr "}" b) as [[|[|k]]|] eqn:C; [discriminate|discriminate| |discriminate]. apply strchr_some in C. destruct C as (i' & e & -> & L & N').
    destruct i' as [|y [|x i']]; [discriminate|discriminate|]. injection L as L.
    change (at_ ((y :: x :: i') ++ "}"%char :: e) 0) with y in H. apply ceq_eq in H. subst y.
    replace (skipn (k + 3) (("#"%char :: x :: i') ++ "}"%char :: e)) with e; cycle 1.
    { symmetry. replace (k + 3) with (S (length ("#"%char :: x :: i'))) by (cbn [length]; lia). apply L_Abbr.drop_app_S. }
    change (skipn 1 (("#"%char :: x :: i') ++ "}"%char :: e)) with ((x :: i') ++ "}"%char :: e).
    replace (firstn (S k) ((x :: i') ++ "}"%char :: e)) with (x :: i'); cycle 1.
    { symmetry. rewrite <- L. apply (L_Abbr.take_app (x :: i')). }
    destruct (only_space e) eqn:O; [|discriminate]. intro H. injection H as <- <-. exists a, e.
    split; [reflexivity|]. split; [now apply rtrim_spec|]. split; [discriminate|]. split; [intro I; apply N; right; apply in_or_app; now left|].
    split; [intro I; apply N'; now right|now apply only_space_spec].
  - intros (p & e & -> & T & Ni & N1 & N2 & F).
    assert (E : split_last "{" (p ++ B "{#" ++ i ++ B "}" ++ e) = Some (p, ("#"%char :: i) ++ B "}" ++ e)).
    { apply split_last_some. split; [reflexivity|]. intro I. apply in_app_or in I. destruct I as [[I|I]|[I|I]]; [discriminate|auto|discriminate|].
      revert I. now apply not_in_space. }
    rewrite E. change (B "}" ++ e) with ("}"%char :: e). rewrite L_Abbr.chr_first by (intros [I|I]; [discriminate|auto]).
    destruct i as [|x i]; [congruence|]. cbn [length]. change (at_ (("#"%char :: x :: i) ++ "}"%char :: e) 0) with "#"%char. cbn [ceq]. rewrite ceq_refl.
    replace (length i + 3) with (S (length ("#"%char :: x :: i))) by (cbn [length]; lia). rewrite L_Abbr.drop_app_S.
    rewrite (proj2 (only_space_spec e) F). change (skipn 1 (("#"%char :: x :: i) ++ "}"%char :: e)) with ((x :: i) ++ "}"%char :: e).
    change (S (length i)) with (length (x :: i)). rewrite L_Abbr.take_app.
    apply rtrim_spec in T. now rewrite T.
Qed.
Lemma last_not_space (a e : str) c b f d : isspace c = false -> isspace d = false ->
  Forall (fun c => isspace c = true) e -> Forall (fun c => isspace c = true) f -> a ++ c :: e = b ++ d :: f -> c = d.
Proof.
  intros C D E F H.
  assert (X : rtrim (a ++ c :: e) = a ++ [c]).
  { apply rtrim_spec. exists e. split; [now rewrite <- app_assoc|]. split; [exact E|]. intros r x R. apply app_inj_tail in R. now destruct R as [_ <-]. }
  assert (Y : rtrim (b ++ d :: f) = b ++ [d]).
  { apply rtrim_spec. exists f. split; [now rewrite <- app_assoc|]. split; [exact F|]. intros r x R. apply app_inj_tail in R. now destruct R as [_ <-]. }
  rewrite H, Y in X. apply app_inj_tail in X. now destruct X.
Qed.
Lemma manual_spec text q i : manual_id text = Some (q, i) <-> written text q i.
Proof.
  unfold manual_id. split.
  - destruct (mmd_id text) as [[q' i']|] eqn:M.
    + intro H. injection H as -> ->. apply mmd_spec in M. destruct M as (p & e & -> & T & Ni & N1 & N2 & Np & F). now apply wr_brackets.
    + intro K. apply kramdown_spec in K. destruct K as (p & e & -> & T & Ni & N1 & N2 & F). now apply wr_braces.
  - intros [p q' i' e T Ni N1 N2 Np F|p q' i' e T Ni N1 N2 F].
    + assert (M : mmd_id (p ++ B "[" ++ i' ++ B "]" ++ e) = Some (q', i')) by (apply mmd_spec; exists p, e; auto 8).
      now rewrite M.
    + destruct (mmd_id _) as [[q2 i2]|] eqn:M.
      * exfalso. apply mmd_spec in M. destruct M as (p2 & e2 & E & _ & _ & _ & _ & _ & F2).
        assert (X : "}"%char = "]"%char); [|discriminate X].
        eapply (last_not_space (p ++ B "{#" ++ i') e "}"%char (p2 ++ B "[" ++ i2) e2); try reflexivity; try assumption.
        rewrite <- !app_assoc. exact E.
      * apply kramdown_spec. exists p, e. auto 8.
Qed.
