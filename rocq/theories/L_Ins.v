(** Lemmas on insertions. *)
From Verif Require Import Base BaseL M_Ins S_Ins L_Put.
From Verif Require L_Highlight.

Definition ends_ok (prev : option ascii) (x : str) : Prop :=
  match x with
  | [] => match prev with Some p => ~ In p (SP :: TAB :: B "+") | None => True end
  | _ => ~ In (last x NUL) (SP :: TAB :: B "+")
  end.
Definition ending (prev : option ascii) (s x r : str) : Prop :=
  s = x ++ B "++" ++ r /\ ~ In NL x /\ ~ In CR x /\ ends_ok prev x /\ ~ begins "+"%char r.
Lemma ends_bool prev : match prev with Some p => ceq p SP || ceq p TAB || ceq p "+" | None => false end = false <-> ends_ok prev [].
Proof.
  destruct prev as [p|]; cbn [ends_ok]; [|tauto]. rewrite !Bool.orb_false_iff, !ceq_neq. cbn [In B list_ascii_of_string]. intuition auto.
Qed.
Lemma ends_cons prev c x : ends_ok prev (c :: x) <-> ends_ok (Some c) x.
Proof. destruct x; reflexivity. Qed.
Lemma ending_cons prev c s x r : ending prev (c :: s) (c :: x) r <-> ending (Some c) s x r /\ c <> NL /\ c <> CR.
Proof.
  unfold ending. rewrite ends_cons. cbn [In]. split.
  - intros (E & N1 & N2 & H). injection E as E. repeat split; try tauto; congruence.
  - intros ((E & N1 & N2 & H1 & H2) & M1 & M2). split; [now rewrite E|]. repeat split; auto; intros [Q|Q]; congruence || tauto.
Qed.
Lemma find_plus_spec s : forall prev,
  match find_plus prev s with
  | Some (x, r) => ending prev s x r /\ forall y q, ending prev s y q -> length x <= length y
  | None => forall y q, ~ ending prev s y q
  end.
Proof.
  induction s as [|c s IH]; intro prev; cbn [find_plus].
  - intros y q (E & _). destruct y; discriminate.
  - destruct (ceq c NL || ceq c CR)%bool eqn:En.
    { rewrite Bool.orb_true_iff, !ceq_eq in En. intros y q (E & N1 & N2 & _). destruct y as [|d y]; injection E as -> E; [destruct En; discriminate|]. destruct En as [->| ->]; (apply N1; now left) || (apply N2; now left). }
    rewrite Bool.orb_false_iff, !ceq_neq in En. destruct En as [Mn Mc].
    destruct (ceq c "+" && ceq (at_ s 0) "+" && negb (ceq (at_ s 1) "+") && negb match prev with Some p => ceq p SP || ceq p TAB || ceq p "+" | None => false end)%bool eqn:C.
    + rewrite !Bool.andb_true_iff, !Bool.negb_true_iff in C. destruct C as (((C1 & C2) & C3) & C4). apply ceq_eq in C1, C2. apply ends_bool in C4. subst c.
      destruct s as [|d s]; [discriminate|]. cbn in C2. subst d. cbn [skipn]. split; [|intros; cbn; lia]. repeat split; auto; try tauto.
      intros (q & ->). cbn in C3. discriminate.
    + assert (No : forall q, ~ ending prev (c :: s) [] q).
      { intros q (E & _ & _ & H & Nb). injection E as -> ->. apply ends_bool in H. rewrite H in C. cbn [at_ nth app B list_ascii_of_string] in C. rewrite !ceq_refl in C. cbn [andb negb] in C.
        rewrite Bool.andb_true_r in C. apply Bool.negb_false_iff in C. apply ceq_eq in C. destruct q as [|e q]; [discriminate|]. cbn in C. subst e. apply Nb. now exists q. }
      specialize (IH (Some c)). destruct (find_plus (Some c) s) as [[x r]|].
      * destruct IH as [IH1 IH2]. split; [now apply ending_cons|]. intros y q H. destruct y as [|d y]; [now apply No in H|]. assert (d = c) as -> by (destruct H as (E & _); now injection E).
        apply ending_cons in H. destruct H as [H _]. apply IH2 in H. cbn. lia.
      * intros y q H. destruct y as [|d y]; [now apply No in H|]. assert (d = c) as -> by (destruct H as (E & _); now injection E). apply ending_cons in H. now apply (IH y q).
Qed.
Lemma opens_spec prev s : opens_insert prev s = true <->
  exists d r, s = B "++" ++ d :: r /\ ~ In d (NUL :: SP :: TAB :: NL :: CR :: B "+}") /\ prev <> Some "+"%char /\ prev <> Some "{"%char.
Proof.
  unfold opens_insert. rewrite !Bool.andb_true_iff, !Bool.negb_true_iff. split.
  - intros (((((((((A1 & A2) & A3) & A4) & A5) & A6) & A7) & A8) & A9) & A10). apply ceq_eq in A1, A2. destruct s as [|x [|y [|d r]]]; try discriminate. cbn in A1, A2. subst. cbn [at_ nth] in *.
    apply ceq_neq in A3, A4, A5, A6, A7, A8, A9. exists d, r. split; [reflexivity|]. split; [cbn; intuition auto|].
    destruct prev as [p|]; [|split; discriminate]. apply Bool.orb_false_iff in A10. destruct A10 as [P1 P2]. apply ceq_neq in P1, P2. split; congruence.
  - intros (d & r & -> & Nd & P1 & P2). cbn [B list_ascii_of_string app at_ nth]. rewrite !ceq_refl.
    assert (Q : forall e, In e (NUL :: SP :: TAB :: NL :: CR :: B "+}") -> ceq d e = false) by (intros e I; apply ceq_neq; intros ->; now apply Nd).
    rewrite !Q by (cbn; tauto). repeat split. destruct prev as [p|]; [|reflexivity]. apply Bool.orb_false_iff. split; apply ceq_neq; congruence.
Qed.
(** An insertion is what opens and ends. *)
Lemma insertion_iff prev x r : insertion prev x r <-> opens_insert prev (B "++" ++ x ++ B "++" ++ r) = true /\ ending None (x ++ B "++" ++ r) x r.
Proof.
  rewrite opens_spec. unfold insertion, ending. split.
  - intros (Nx & N1 & N2 & H1 & H2 & H3 & H4 & H5). split.
    + destruct x as [|d x]; [congruence|]. exists d, (x ++ B "++" ++ r). split; [reflexivity|]. split; [|now split].
      intro I. apply (H1 d); [now exists x|]. assert (d <> NL /\ d <> CR) by (split; intros ->; (apply N1; now left) || (apply N2; now left)). cbn in *. intuition congruence.
    + split; [reflexivity|]. split; [exact N1|]. split; [exact N2|]. split; [|exact H3]. destruct x; [congruence|exact H2].
  - intros ((d & q & E & Nd & P1 & P2) & _ & N1 & N2 & H2 & H3). injection E as E. destruct x as [|e x].
    + injection E as <- _. exfalso. apply Nd. cbn. tauto.
    + injection E as -> E. split; [discriminate|]. split; [exact N1|]. split; [exact N2|]. split; [|now split].
      intros c (q' & Eq). injection Eq as <- _. intro I. apply Nd. cbn in *. tauto.
Qed.
Lemma find_ial_spec s : match find_ial s with
  | Some (b, a, r) => braces s b a r
  | None => forall b a r, ~ braces s b a r
  end.
Proof.
  unfold find_ial. destruct (span _ s) as [b q] eqn:E. apply L_Highlight.span_spec in E. destruct E as (-> & F & St). rewrite forallb_forall in F.
  assert (Fb : forall c, In c b -> c = SP \/ c = TAB). { intros c I. apply F in I. rewrite Bool.orb_true_iff, !ceq_eq in I. exact I. }
  assert (U : forall b' a r, braces (b ++ q) b' a r -> exists q', q = "{"%char :: q' /\ q' = a ++ B "}" ++ r).
  { intros b' a r (E & Fb' & Na). clear F Na. revert b' E Fb'. induction b as [|c b IH]; intros b' E Fb'.
    - destruct b' as [|d b']; [exists (a ++ B "}" ++ r); split; [exact E|reflexivity]|]. exfalso. cbn [app] in E. specialize (St d _ E). destruct (Fb' d); [now left| |]; subst; rewrite ceq_refl, ?Bool.orb_true_r in St; discriminate.
    - destruct b' as [|d b']; [injection E as -> _; destruct (Fb "{"%char); [now left|discriminate|discriminate]|]. injection E as -> E. apply (IH ltac:(intros; apply Fb; now right) b' E). intros; apply Fb'; now right. }
  destruct q as [|c q]; [intros b' a r H; apply U in H; destruct H as (q' & H & _); discriminate|].
  destruct (ceq c "{") eqn:Ec.
  - apply ceq_eq in Ec. subst c. destruct (strchr "}" q) as [k|] eqn:Ek.
    + apply strchr_some in Ek. destruct Ek as (x & r & -> & Lx & Nx). subst k. rewrite firstn_app, firstn_all, Nat.sub_diag, app_nil_r, skipn_app, skipn_all2 by lia.
      replace (S (length x) - length x) with 1 by lia. cbn [app firstn skipn]. rewrite ?app_nil_r. split; [reflexivity|]. split; [exact Fb|exact Nx].
    + intros b' a r H. apply U in H as (q' & H & Hq). injection H as <-. rewrite Hq in Ek. assert (Z : ~ In "}"%char (a ++ B "}" ++ r)) by now apply strchr_none. apply Z. apply in_or_app. right. now left.
  - intros b' a r H. apply U in H. destruct H as (q' & H & _). injection H as -> _. discriminate.
Qed.
(** ** The block *)
Lemma grow_ok n w : w_ok w -> w_ok (w_grow n w) /\ w_out (w_grow n w) = w_out w /\ w_rem w <= w_rem (w_grow n w) /\ n <= w_rem (w_grow n w).
Proof.
  intros [R O]. unfold w_grow. destruct (Nat.ltb_spec (w_rem w) n) as [L|L]; [|repeat split; auto].
  cbv zeta. split; [split; cbn [w_out w_rem w_cap w_oob]; [lia|exact O]|]. cbn [w_out w_rem]. repeat split; lia.
Qed.
Lemma put_plain_ok x w : w_ok w -> w_ok (put_plain x w) /\ w_cap (put_plain x w) = w_cap w.
Proof. intro R. unfold put_plain. split; [now repeat apply w_puts_lt_ok|]. now rewrite !w_puts_lt_cap. Qed.
Lemma put_plain_room x w : w_ok w -> length (html (Ins x)) < w_rem w -> put_plain x w = put_out (html (Ins x)) w.
Proof.
  intros R L. cbn [html] in *. rewrite !app_length in L. unfold put_plain.
  rewrite (puts_lt_room (B "<ins>")) by (auto; cbn [length B list_ascii_of_string] in *; lia).
  assert (R1 : w_ok (put_out (B "<ins>") w)) by (apply put_out_ok; auto; cbn [length B list_ascii_of_string] in *; lia).
  rewrite (puts_lt_room x) by (auto; rewrite put_out_rem; cbn [length B list_ascii_of_string] in *; lia). rewrite put_out_app.
  assert (R2 : w_ok (put_out (B "<ins>" ++ x) w)) by (apply put_out_ok; auto; rewrite app_length; cbn [length B list_ascii_of_string] in *; lia).
  rewrite puts_lt_room by (auto; rewrite put_out_rem, app_length; cbn [length B list_ascii_of_string] in *; lia). now rewrite put_out_app, <- app_assoc.
Qed.
Lemma put_with_ok x a w : w_ok w -> exists w0, w_ok w0 /\ w_out w0 = w_out w /\ w_rem w <= w_rem w0 /\ length (html (InsA x [] [] a)) < w_rem w0 /\ put_with x a w = put_out (html (InsA x [] [] a)) w0.
Proof.
  intro R. unfold put_with. set (n := 30 + length a + length x + 20). destruct (grow_ok n w R) as (R0 & O & L1 & L2). exists (w_grow n w).
  set (w0 := w_grow n w) in *. clearbody w0. split; [exact R0|]. split; [exact O|]. split; [exact L1|].
  assert (Lh : length (html (InsA x [] [] a)) = 27 + length a + length x). { cbn [html]. rewrite !app_length. cbn [length B list_ascii_of_string]. lia. }
  rewrite Lh. split; [unfold n in L2; lia|]. set (o := B "<ins markdown=" ++ [DQ] ++ B "span" ++ [DQ] ++ a ++ B ">").
  assert (Lo : length o = 21 + length a). { unfold o. rewrite !app_length. cbn [length B list_ascii_of_string]. lia. }
  rewrite (puts_lt_room o) by (auto; unfold n in L2; lia).
  assert (R1 : w_ok (put_out o w0)) by (apply put_out_ok; auto; unfold n in L2; lia).
  rewrite (puts_lt_room x) by (auto; rewrite put_out_rem; unfold n in L2; lia). rewrite put_out_app.
  assert (R2 : w_ok (put_out (o ++ x) w0)) by (apply put_out_ok; auto; rewrite app_length; unfold n in L2; lia).
  rewrite puts_lt_room by (auto; rewrite put_out_rem, app_length; cbn [length B list_ascii_of_string]; unfold n in L2; lia).
  rewrite put_out_app. unfold o. cbn [html]. now rewrite <- !app_assoc.
Qed.
(** ** The loop *)
Section Loop.
Variable ial : str -> option str.
Lemma text_cons p l : text (p :: l) = source p ++ text l.
Proof. reflexivity. Qed.
Lemma render_cons p l : render (p :: l) = html p ++ render l.
Proof. reflexivity. Qed.
Definition good (s : str) (prev : option ascii) (w : wr) (l : list part) (w' : wr) : Prop :=
  text l = s /\ clear ial prev l /\ w_ok w' /\ (length (render l) < w_rem w -> w_out w' = w_out w ++ render l /\ 0 < w_rem w') /\
  (no_attributes l -> w_cap w' = w_cap w).
Lemma loop_ok fuel : forall s prev block inl w, length s < fuel -> w_ok w ->
  exists l w', ins_loop ial fuel s prev block inl w = Some w' /\ good s prev w l w' /\
    (block = false -> inl = false -> ~ In "`"%char s -> complete prev l).
Proof.
  induction fuel as [|fuel IH]; intros s prev block inl w L R; [lia|]. destruct s as [|c s].
  { exists [], w. cbn. split; [reflexivity|]. split; [|constructor]. split; [reflexivity|]. split; [exact I|]. split; [exact R|]. split; [|reflexivity]. rewrite app_nil_r. auto. }
  cbn [length] in L. cbn [ins_loop].
  set (three := (ceq (at_ s 0) "`" && ceq (at_ s 1) "`")%bool).
  set (inl' := if (ceq c "`" && negb three && negb block)%bool then negb inl else inl).
  set (block' := if (ceq c "`" && three)%bool then negb block else block).
  assert (Flags : block = false -> inl = false -> ~ In "`"%char (c :: s) -> block' = false /\ inl' = false).
  { intros -> -> N. assert (E : ceq c "`" = false) by (apply ceq_neq; intros ->; apply N; now left). unfold block', inl'. rewrite E. now split. }
  assert (Copy : (block' = false -> inl' = false -> forall x r, c :: s = B "++" ++ x ++ B "++" ++ r -> ~ insertion prev x r) ->
    exists l w', ins_loop ial fuel s (Some c) block' inl' (w_put c w) = Some w' /\ good (c :: s) prev w l w' /\
    (block = false -> inl = false -> ~ In "`"%char (c :: s) -> complete prev l)).
  { intro Hn. destruct (IH s (Some c) block' inl' (w_put c w)) as (l & w' & E & (T & C & R' & Rm & Cp) & Co); [lia|now apply w_put_ok|].
    exists (Byte c :: l), w'. split; [exact E|]. split.
    - split; [now rewrite text_cons, T|]. split; [now split|]. split; [exact R'|]. split.
      + rewrite render_cons. cbn [html app length]. intro Lr. rewrite put_room in Rm by (auto; lia). cbn [put_out w_out] in Rm. rewrite put_out_rem in Rm. cbn [length] in Rm.
        destruct Rm as [-> Q]; [lia|]. split; [now rewrite <- app_assoc|exact Q].
      + cbn [no_attributes]. intro Na. rewrite (Cp Na). apply w_put_cap.
    - intros B0 I0 N. destruct (Flags B0 I0 N) as [B1 I1]. split.
      + intros c' x r Ec E2. injection Ec as <-. apply (Hn B1 I1). rewrite <- E2, text_cons, T. reflexivity.
      + apply Co; auto. intro Q. apply N. now right. }
  destruct (negb block' && negb inl' && opens_insert prev (c :: s))%bool eqn:O.
  2:{ apply Copy. intros B1 I1 x r E Hi. rewrite B1, I1 in O. cbn [negb andb] in O. rewrite E in O. apply insertion_iff in Hi. destruct Hi as [Hi _]. congruence. }
  rewrite !Bool.andb_true_iff in O. destruct O as [_ O]. pose proof O as O'. apply opens_spec in O'. destruct O' as (d & q & Es & _).
  rewrite Es. change (skipn 2 (B "++" ++ d :: q)) with (d :: q). pose proof (find_plus_spec (d :: q) None) as Fp.
  destruct (find_plus None (d :: q)) as [[x r]|].
  2:{ rewrite <- Es. apply Copy. intros _ _ x r E Hi. apply insertion_iff in Hi. destruct Hi as [_ Hi]. apply (Fp x r). rewrite Es in E. injection E as E. rewrite E. exact Hi. }
  destruct Fp as [En Mi]. pose proof En as (Ed & _).
  assert (Hi : insertion prev x r). { apply insertion_iff. rewrite <- Ed. split; [rewrite <- Es; exact O|exact En]. }
  assert (Hf : first_end prev x r).
  { intros y q' E Hy. apply insertion_iff in Hy. destruct Hy as [_ Hy]. rewrite <- E, <- Ed in Hy. now apply (Mi y q'). }
  assert (Ls : length (c :: s) = length x + 4 + length r). { rewrite Es, Ed, !app_length. cbn [length B list_ascii_of_string]. lia. } cbn [length] in Ls.
  rewrite <- Es. rewrite Ed in Es. clear Ed.
  assert (Plain : (forall b a r', braces r b a r' -> ial a = None) ->
    exists l w', ins_loop ial fuel r (Some "+"%char) block' inl' (put_plain x w) = Some w' /\ good (c :: s) prev w l w' /\ (block = false -> inl = false -> ~ In "`"%char (c :: s) -> complete prev l)).
  { intro Hb. destruct (put_plain_ok x w R) as [R1 C1]. destruct (IH r (Some "+"%char) block' inl' (put_plain x w)) as (l & w' & E & (T & C & R' & Rm & Cp) & Co); [lia|exact R1|].
    exists (Ins x :: l), w'. split; [exact E|].
    assert (La : last (source (Ins x)) NUL = "+"%char). { cbn [source]. rewrite app_assoc. change (B "++") with (B "+" ++ B "+") at 2. rewrite app_assoc. apply (last_last _ "+"%char NUL). }
    split.
    - split; [rewrite text_cons, T; cbn [source]; rewrite <- !app_assoc; now symmetry|]. split; [cbn [clear]; rewrite T, La; auto|]. split; [exact R'|]. split.
      + rewrite render_cons, app_length. intro Lr. rewrite put_plain_room in Rm by (auto; lia). rewrite put_out_rem in Rm. cbn [put_out w_out] in Rm. destruct Rm as [-> Q]; [lia|].
        split; [now rewrite <- app_assoc|exact Q].
      + cbn [no_attributes]. intro Na. now rewrite (Cp Na).
    - intros B0 I0 N. destruct (Flags B0 I0 N) as [B1 I1]. split; [discriminate|]. rewrite La. apply Co; auto. intro Q. apply N. rewrite Es, !in_app_iff. tauto. }
  pose proof (find_ial_spec r) as Fi. destruct (find_ial r) as [[[b a] r']|].
  2:{ apply Plain. intros b a r' H. now apply Fi in H. }
  destruct (ial a) as [h|] eqn:Ia.
  2:{ apply Plain. intros b0 a0 r0 H. replace a0 with a; [exact Ia|]. destruct H as (E0 & Fb0 & Na0), Fi as (E1 & Fb1 & Na1). rewrite E0 in E1. clear -E1 Fb0 Fb1 Na0 Na1.
      revert b0 E1 Fb0. induction b as [|e b IH]; intros b0 E1 Fb0.
      - destruct b0 as [|f b0]; [|injection E1 as -> _; destruct (Fb0 "{"%char); [now left|discriminate|discriminate]]. injection E1 as E1. revert a0 Na0 E1. induction a as [|g a IHa]; intros [|g0 a0] Na0 E1; [reflexivity| | |].
        + injection E1 as -> _. exfalso. apply Na0. now left.
        + injection E1 as <- _. exfalso. apply Na1. now left.
        + injection E1 as -> E1. f_equal. apply IHa; auto; intro; (apply Na1; now right) || (apply Na0; now right).
      - destruct b0 as [|f b0]; [injection E1 as <- _; destruct (Fb1 "{"%char); [now left|discriminate|discriminate]|]. injection E1 as -> E1. apply (IH ltac:(intros; apply Fb1; now right) b0 E1). intros; apply Fb0; now right. }
  destruct (put_with_ok x h w R) as (w0 & R0 & O0 & L0 & Lh & Ew). destruct Fi as (Er & Fb & Na).
  assert (R1 : w_ok (put_with x h w)) by (rewrite Ew; apply put_out_ok; [exact R0|lia]).
  destruct (IH r' (Some "}"%char) block' inl' (put_with x h w)) as (l & w' & E & (T & C & R' & Rm & Cp) & Co); [rewrite Er, !app_length in Ls; cbn [length B list_ascii_of_string] in Ls; lia|exact R1|].
  exists (InsA x b a h :: l), w'. split; [exact E|].
  assert (La : last (source (InsA x b a h)) NUL = "}"%char). { cbn [source]. rewrite !app_assoc. apply (last_last _ "}"%char NUL). }
  split.
  - split; [rewrite text_cons, T; cbn [source]; rewrite <- !app_assoc, <- Er; now symmetry|]. split; [cbn [clear]; rewrite T, La, <- Er; auto 8|]. split; [exact R'|]. split.
    + rewrite render_cons, app_length. intro Lr. rewrite Ew, put_out_rem in Rm. cbn [put_out w_out] in Rm. change (html (InsA x b a h)) with (html (InsA x [] [] h)) in *.
      destruct Rm as [-> Q]; [lia|]. split; [now rewrite O0, <- app_assoc|exact Q].
    + intros [].
  - intros B0 I0 N. destruct (Flags B0 I0 N) as [B1 I1]. split; [discriminate|]. rewrite La. apply Co; auto. intro Q. apply N. rewrite Es, Er, !in_app_iff. tauto.
Qed.
Lemma inserts_ok s : exists l w, inserts ial s = Some w /\ text l = s /\ clear ial None l /\
  (length (render l) < 2 * length s -> w_out w = render l /\ w_oob w = false) /\
  (no_attributes l -> w_out w = render l /\ w_oob w = false -> length (render l) < 2 * length s) /\
  (~ In "`"%char s -> complete None l).
Proof.
  unfold inserts. destruct (loop_ok (S (length s)) s None false false (w_new (length s * 2) (length s * 2))) as (l & w & -> & (T & C & R & Rm & Cp) & Co); [lia|apply w_ok_new|].
  exists l, (w_term w). split; [reflexivity|]. split; [exact T|]. split; [exact C|]. cbn [w_new w_rem w_cap w_out app] in *. split; [|split].
  - intro L. destruct Rm as [E Q]; [lia|]. split; [exact E|now apply w_term_safe].
  - intros Na [E O]. apply w_term_safe in O; [|exact R]. destruct R as [R _]. rewrite (Cp Na) in R. cbn [w_term w_out] in E. rewrite <- E. lia.
  - intro N. now apply Co.
Qed.
End Loop.
(** ** Code *)
Section Code.
Variable ial : str -> option str.
(** The bytes of [x] are copied. *)
Definition puts (x : str) (w : wr) : wr := fold_left (fun w c => w_put c w) x w.
Lemma puts_ok x : forall w, w_ok w -> w_ok (puts x w) /\ (length x < w_rem w -> puts x w = put_out x w).
Proof.
  induction x as [|c x IH]; intros w R; cbn [puts fold_left length].
  - split; [exact R|]. intros _. now rewrite put_out_nil.
  - destruct (IH (w_put c w) (w_put_ok _ _ R)) as [R' E]. split; [exact R'|]. intro L. change (fold_left (fun w c => w_put c w) x (w_put c w)) with (puts x (w_put c w)).
    rewrite put_room in * by (auto; lia). rewrite E by (rewrite put_out_rem; cbn [length]; lia). now rewrite put_out_app.
Qed.
Lemma last_some x : forall prev : option ascii, x <> [] -> (fold_left (fun _ c => Some c) x prev) = Some (last x NUL).
Proof. induction x as [|c [|d x] IH]; intros prev N; [congruence|reflexivity|]. cbn [fold_left]. exact (IH (Some c) ltac:(discriminate)). Qed.
Definition prev_of (x : str) (prev : option ascii) : option ascii := fold_left (fun _ c => Some c) x prev.
(** Before the code: no two plus signs, so nothing opens. *)
Lemma before u r fuel : forall prev w, length (u ++ r) < fuel -> ~ In "`"%char u -> (forall a b, u <> a ++ B "++" ++ b) -> ~ begins "+"%char r ->
  ins_loop ial fuel (u ++ r) prev false false w = ins_loop ial (fuel - length u) r (prev_of u prev) false false (puts u w).
Proof.
  revert u r. induction fuel as [|fuel IH]; intros u r prev w L N Np Nr; [lia|]. destruct u as [|c u]; [reflexivity|]. cbn [app length] in *. cbn [ins_loop].
  assert (E : ceq c "`" = false) by (apply ceq_neq; intros ->; apply N; now left). rewrite E. cbn [andb negb].
  assert (O : opens_insert prev (c :: u ++ r) = false).
  { destruct (opens_insert prev (c :: u ++ r)) eqn:O; [|reflexivity]. apply opens_spec in O. destruct O as (d & q & Eq & _). injection Eq as -> Eq. destruct u as [|e u].
    - exfalso. apply Nr. cbn [app] in Eq. exists (d :: q). exact Eq.
    - injection Eq as -> _. exfalso. now apply (Np [] u). }
  rewrite O. rewrite (IH u r); [reflexivity|lia|intro; apply N; now right| |exact Nr]. intros a b Eu. apply (Np (c :: a) b). now rewrite Eu.
Qed.
(** Inside. *)
Lemma inside x r fuel : forall prev w, length (x ++ r) < fuel -> ~ In "`"%char x ->
  ins_loop ial fuel (x ++ r) prev false true w = ins_loop ial (fuel - length x) r (prev_of x prev) false true (puts x w).
Proof.
  revert x r. induction fuel as [|fuel IH]; intros x r prev w L N; [lia|]. destruct x as [|c x]; [reflexivity|]. cbn [app length] in *. cbn [ins_loop].
  assert (E : ceq c "`" = false) by (apply ceq_neq; intros ->; apply N; now left). rewrite E. cbn [andb negb]. rewrite (IH x r); [reflexivity|lia|intro; apply N; now right].
Qed.
Lemma code_kept u x v : ~ In "`"%char (u ++ x ++ v) -> (forall a b, u <> a ++ B "++" ++ b) -> x <> [] ->
  exists l w, inserts ial (u ++ B "`" ++ x ++ B "`" ++ v) = Some w /\ text l = v /\ clear ial (Some "`"%char) l /\ complete (Some "`"%char) l /\
  (length (render l) + length u + length x + 2 < 2 * length (u ++ B "`" ++ x ++ B "`" ++ v) -> w_out w = u ++ B "`" ++ x ++ B "`" ++ render l /\ w_oob w = false).
Proof.
  intros N Np Nx. rewrite !in_app_iff in N. set (s := u ++ B "`" ++ x ++ B "`" ++ v). unfold inserts.
  assert (Ls : length s = length u + length x + length v + 2). { unfold s. rewrite !app_length. cbn [length B list_ascii_of_string]. lia. }
  set (w0 := w_new (length s * 2) (length s * 2)). assert (R0 : w_ok w0) by apply w_ok_new. assert (Q0 : w_rem w0 = length s * 2) by reflexivity. assert (O0 : w_out w0 = []) by reflexivity. clearbody w0.
  unfold s at 2. rewrite (before u); [|fold s; lia|tauto|exact Np|intros (q & Q); discriminate].
  set (w1 := puts u w0). destruct (puts_ok u w0 R0) as [R1 E1]. fold w1 in R1, E1.
  replace (S (length s) - length u) with (S (length (x ++ B "`" ++ v) + 1)) by (rewrite Ls, !app_length; cbn [length B list_ascii_of_string]; lia).
  cbn [app B list_ascii_of_string ins_loop]. rewrite ceq_refl.
  assert (T1 : (ceq (at_ (x ++ "`"%char :: v) 0) "`" && ceq (at_ (x ++ "`"%char :: v) 1) "`")%bool = false).
  { destruct x as [|e x]; [congruence|]. cbn [app at_ nth]. assert (ceq e "`" = false) as ->; [|reflexivity]. apply ceq_neq. intros ->. apply N. right. left. now left. }
  rewrite T1. cbn [andb negb].
  change (x ++ "`"%char :: v) with (x ++ (B "`" ++ v)). rewrite inside; [|rewrite !app_length; cbn [length B list_ascii_of_string]; lia|tauto].
  set (w2 := puts x (w_put "`" w1)). destruct (puts_ok x (w_put "`" w1) (w_put_ok _ _ R1)) as [R2 E2]. fold w2 in R2, E2.
  replace (length (x ++ B "`" ++ v) + 1 - length x) with (S (length v + 1)) by (rewrite !app_length; cbn [length B list_ascii_of_string]; lia).
  cbn [app B list_ascii_of_string ins_loop]. rewrite ceq_refl.
  assert (T2 : (ceq (at_ v 0) "`" && ceq (at_ v 1) "`")%bool = false).
  { destruct v as [|e v]; [reflexivity|]. cbn [at_ nth]. assert (ceq e "`" = false) as ->; [|reflexivity]. apply ceq_neq. intros ->. apply N. right. right. now left. }
  rewrite T2. cbn [andb negb].
  assert (No : opens_insert (prev_of x (Some "`"%char)) ("`"%char :: v) = false). { destruct (opens_insert _ _) eqn:O; [|reflexivity]. apply opens_spec in O. destruct O as (d & q & Eq & _). discriminate. }
  rewrite No. destruct (loop_ok ial (length v + 1) v (Some "`"%char) false false (w_put "`" w2)) as (l & w' & -> & (T & C & R & Rm & Cp) & Co); [lia|now apply w_put_ok|].
  exists l, (w_term w'). split; [reflexivity|]. split; [exact T|]. split; [exact C|]. split; [apply Co; tauto|]. intro Lr.
  assert (w1 = put_out u w0) as W1 by (apply E1; lia). clear E1. rewrite W1 in *.
  assert (Rx : w_rem (put_out u w0) = length s * 2 - length u) by (rewrite put_out_rem; lia).
  rewrite put_room in E2 by (auto; lia). rewrite put_out_app in E2. assert (w2 = put_out ((u ++ [ "`"%char ]) ++ x) w0) as W2 by (rewrite E2; [apply put_out_app|rewrite put_out_rem, app_length; cbn [length]; lia]).
  rewrite W2 in *. rewrite put_room in Rm by (auto; rewrite put_out_rem, !app_length; cbn [length]; lia). rewrite put_out_app, put_out_rem in Rm.
  destruct Rm as [E Q]; [rewrite !app_length; cbn [length]; lia|]. split; [|now apply w_term_safe]. cbn [w_term w_out]. rewrite E. cbn [put_out w_out]. rewrite O0. cbn [app]. now rewrite <- !app_assoc.
Qed.
End Code.
