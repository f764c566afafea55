(** Lemmas on superscripts and subscripts. *)
From Verif Require Import Base BaseL M_SupSub S_SupSub L_Put.
From Verif Require L_Highlight.

Lemma is_spec c s : c <> NUL -> is c s = true <-> exists r, s = c :: r.
Proof.
  intro N. unfold is, at_. destruct s as [|d s]; cbn [nth].
  - rewrite ceq_eq. split; [congruence|intros (r & H); discriminate].
  - rewrite ceq_eq. split; [intros ->; now exists s|intros (r & H); congruence].
Qed.
Lemma is_cons c d s : is c (d :: s) = ceq d c.
Proof. reflexivity. Qed.
Lemma blank_spec c : blank c = true <-> c = SP \/ c = TAB.
Proof. unfold blank. now rewrite Bool.orb_true_iff, !ceq_eq. Qed.
Lemma sentence_spec c : sentence c = true <-> In c (B ".,;:!?").
Proof.
  unfold sentence. rewrite existsb_exists. split.
  - intros (x & I & E). apply ceq_eq in E as ->. exact I.
  - intro I. exists c. split; [exact I|apply ceq_refl].
Qed.
Lemma word_stop m c : (ceq c SP || ceq c TAB || ceq c NL || ceq c m || sentence c)%bool = true <-> ends_word m c.
Proof.
  rewrite !Bool.orb_true_iff, !ceq_eq, sentence_spec. unfold ends_word. cbn [In]. intuition auto.
Qed.
Lemma word_spec m s x r : word m s = (x, r) -> s = x ++ r /\ (forall c, In c x -> ~ ends_word m c) /\ no_word m r.
Proof.
  intro H. apply L_Highlight.span_spec in H. destruct H as (-> & F & St). split; [reflexivity|]. split.
  - intros c I Q. rewrite forallb_forall in F. apply F in I. apply word_stop in Q. rewrite Q in I. discriminate.
  - destruct r as [|c r]; [now left|]. right. exists c, r. split; [reflexivity|]. apply word_stop. specialize (St c r eq_refl). now apply Bool.negb_false_iff.
Qed.

(** ** The closing tilde *)
Lemma closing_spec before s : forall acc y r u, closing before acc s = Some (y, r, u) ->
  exists x, y = rev acc ++ x /\ s = x ++ "~"%char :: r /\ ~ In NL x /\ (y <> [] -> isspace (last y NUL) = false).
Proof.
  induction s as [s IH] using (well_founded_induction (Wf_nat.well_founded_ltof _ (@length ascii))). unfold Wf_nat.ltof in IH.
  intros acc y r u H. destruct s as [|c s]; [discriminate|]. cbn [closing] in H.
  assert (K : forall p q, closing before (rev p ++ acc) q = Some (y, r, u) -> c :: s = p ++ q -> length q <= length s -> ~ In NL p ->
            exists x, y = rev acc ++ x /\ c :: s = x ++ "~"%char :: r /\ ~ In NL x /\ (y <> [] -> isspace (last y NUL) = false)).
  { intros p q Hc E L N. apply IH in Hc; [|cbn; lia]. destruct Hc as (x & -> & -> & Nx & Sp). exists (p ++ x). split; [|split; [|split]].
    - rewrite rev_app_distr, rev_involutive, app_assoc. reflexivity.
    - now rewrite E, <- app_assoc.
    - rewrite in_app_iff. tauto.
    - exact Sp. }
  destruct (ceq c NL) eqn:En; [discriminate|]. assert (Nn : NL <> c) by (apply ceq_neq in En; congruence).
  destruct (ceq c "~") eqn:Ec.
  - apply ceq_eq in Ec as ->.
    assert (F : forall b, Some (rev acc, s, b) = Some (y, r, u) -> match acc with p :: _ => isspace p | [] => false end = false ->
      exists x, y = rev acc ++ x /\ "~"%char :: s = x ++ "~"%char :: r /\ ~ In NL x /\ (y <> [] -> isspace (last y NUL) = false)).
    { intros b E Hs. injection E as <- <- _. exists []. rewrite app_nil_r. repeat split; auto. intro Ny. destruct acc as [|p acc]; [easy|].
      cbn [rev]. now rewrite last_last. }
    destruct s as [|d s].
    + destruct (match acc with p :: _ => isspace p | [] => false end) eqn:Hs; [discriminate|]. eapply F; eauto.
    + destruct (ceq d "~") eqn:Ed.
      * apply ceq_eq in Ed as ->. apply (K ["~"%char; "~"%char] s H eq_refl); [cbn; lia|]. intros [Q|[Q|[]]]; discriminate.
      * destruct (match acc with p :: _ => isspace p | [] => false end) eqn:Hs; [|eapply F; eauto].
        apply (K ["~"%char] (d :: s) H eq_refl); [cbn; lia|]. intros [Q|[]]; discriminate.
  - apply (K [c] s H eq_refl); [lia|]. intros [Q|[]]; congruence.
Qed.

(** ** One step *)
Definition inv (s : str) (w : wr) : Prop :=
  w_ok w /\ (13 * length s + 10 < 3 * w_rem w \/
             (13 * length s < 3 * w_rem w /\ (s = [] \/ exists c r, s = c :: r /\ In c (SP :: TAB :: NL :: B ".,;:!?")))).
Lemma inv_rem s w : inv s w -> 0 < w_rem w.
Proof. intros [_ [H|[H _]]]; lia. Qed.
Lemma inv_copy x s w : 1 <= length x -> 13 * length (x ++ s) + 10 < 3 * w_rem w -> w_ok w -> inv s (put_out x w).
Proof. intros L H R. rewrite app_length in H. split; [apply put_out_ok; [exact R|lia]|]. left. rewrite put_out_rem. lia. Qed.

Definition normal (t : ss) : Prop :=
  s_code t = false /\ s_inline t = false /\ s_math t = false /\ s_display t = false /\ s_liquid t = false /\ s_indent t = false.
Definition idle (prev : option ascii) (p : part) (r : str) : Prop :=
  (p = Lit "^" -> prev = Some "["%char \/ no_word "^" r) /\
  (p = Lit "~" -> prev = Some "~"%char \/ begins ">"%char r \/ no_word "~" r).
Lemma plain_suffix x : forall prev r, plain prev (x ++ r) -> plain (match x with [] => prev | _ => Some (last x NUL) end) r.
Proof.
  induction x as [|c x IH]; intros prev r H; [exact H|]. destruct H as (_ & _ & _ & _ & H). apply IH in H. destruct x as [|d x]; exact H.
Qed.
Lemma at_line_w s t : s_w (at_line s t) = s_w t.
Proof. unfold at_line. destruct (s_prev t) as [c|]; [destruct (ceq c NL)|]; reflexivity. Qed.
Lemma at_line_prev s t : s_prev (at_line s t) = s_prev t.
Proof. unfold at_line. destruct (s_prev t) as [c|] eqn:E; [destruct (ceq c NL)|]; cbn; congruence. Qed.
Lemma at_line_liquid s t : s_liquid (at_line s t) = s_liquid t.
Proof. unfold at_line. destruct (s_prev t) as [c|]; [destruct (ceq c NL)|]; reflexivity. Qed.
Lemma at_tick_w s t : s_w (at_tick s t) = s_w t.
Proof. unfold at_tick. destruct (is "`" s), (ceq (at_ s 1) "`" && ceq (at_ s 2) "`")%bool, (s_code t); reflexivity. Qed.
Lemma at_tick_prev s t : s_prev (at_tick s t) = s_prev t.
Proof. unfold at_tick. destruct (is "`" s), (ceq (at_ s 1) "`" && ceq (at_ s 2) "`")%bool, (s_code t); reflexivity. Qed.
Lemma at_tick_no c s t : c <> "`"%char -> at_tick (c :: s) t = t.
Proof. intro N. unfold at_tick. rewrite is_cons. apply ceq_neq in N. now rewrite N. Qed.
Lemma is_no c d s : d <> c -> is c (d :: s) = false.
Proof. intro N. rewrite is_cons. now apply ceq_neq. Qed.
Lemma not_indented prev c s : plain prev (c :: s) -> line_start prev -> indented (c :: s) = false.
Proof.
  intros (_ & _ & _ & H & _) L. destruct (H L) as [N H1]. unfold indented. rewrite is_no by exact N.
  destruct (starts (B "    ") (c :: s)) eqn:E; [|reflexivity]. apply starts_spec in E. destruct E as (r & E). now apply H1 in E.
Qed.
Lemma at_line_normal c s t : normal t -> plain (s_prev t) (c :: s) -> normal (at_line (c :: s) t).
Proof.
  intros N P. unfold at_line. destruct (s_prev t) as [d|] eqn:E; [destruct (ceq d NL) eqn:Ed|].
  - apply ceq_eq in Ed as ->. unfold normal in *. cbn [s_code s_inline s_math s_display s_liquid s_indent]. rewrite (not_indented (Some NL)); [tauto|exact P|now right].
  - exact N.
  - unfold normal in *. cbn [s_code s_inline s_math s_display s_liquid s_indent]. rewrite (not_indented None); [tauto|exact P|now left].
Qed.
(** A byte without meaning *)
Lemma step_quiet c s t fuel : ~ In c (B "{%`$^~") -> ss_loop (S fuel) (c :: s) t = ss_loop fuel s (copy1 c (at_line (c :: s) t)).
Proof.
  intro N.
  assert (Q : forall d, In d (B "{%`$^~") -> ceq c d = false) by (intros d I; apply ceq_neq; intros ->; now apply N).
  cbn [ss_loop]. rewrite (Q "{"%char) by (cbn; tauto). rewrite Bool.andb_false_r. cbn [andb]. rewrite (Q "%"%char) by (cbn; tauto). cbn [andb].
  destruct (s_liquid (at_line (c :: s) t)); [reflexivity|]. set (t0 := at_line (c :: s) t). rewrite at_tick_no by (apply ceq_neq; apply Q; cbn; tauto).
  unfold at_math, at_caret, at_tilde, at_word, opens. rewrite !is_cons. rewrite (Q "$"%char), (Q "^"%char), (Q "~"%char) by (cbn; tauto). cbn [andb].
  destruct (s_code t0 || s_inline t0 || s_indent t0)%bool; cbn [orb]; [reflexivity|]. now destruct (s_math t0 || s_display t0)%bool.
Qed.
Definition step_ok (s : str) (t : ss) : Prop :=
  exists l r t1, s = text l ++ r /\ length r < length s /\ (forall fuel, ss_loop (S fuel) s t = ss_loop fuel r t1) /\
    s_w t1 = put_out (render l) (s_w t) /\ s_prev t1 = Some (last (text l) NUL) /\ Forall well l /\ inv r (s_w t1) /\
    (normal t -> plain (s_prev t) s -> normal t1 /\ exists p, l = [p] /\ idle (s_prev t) p r).
Lemma step_copy1 c s t t1 : 13 * length (c :: s) < 3 * w_rem (s_w t) -> w_ok (s_w t) -> s_w t1 = s_w t ->
  (forall fuel, ss_loop (S fuel) (c :: s) t = ss_loop fuel s (copy1 c t1)) ->
  (normal t -> plain (s_prev t) (c :: s) -> normal t1 /\ idle (s_prev t) (Lit c) s) -> step_ok (c :: s) t.
Proof.
  intros L R W E P. exists [Lit c], s, (copy1 c t1). split; [reflexivity|]. split; [cbn; lia|]. split; [exact E|].
  assert (Wc : s_w (copy1 c t1) = put_out [c] (s_w t)). { cbn [copy1 s_w]. rewrite W. apply put_room; [exact R|]. cbn [length] in L. lia. }
  split; [exact Wc|]. split; [reflexivity|]. split; [repeat constructor|]. split.
  - rewrite Wc. split; [apply put_out_ok; [exact R|cbn [length] in *; lia]|]. left. rewrite put_out_rem. cbn [length] in *. lia.
  - intros N Pl. destruct (P N Pl) as [N1 I]. split; [exact N1|]. now exists (Lit c).
Qed.
Lemma step_copy2 c d s t t1 : 13 * length (c :: d :: s) + 10 < 3 * w_rem (s_w t) -> w_ok (s_w t) -> s_w t1 = s_w t ->
  (forall fuel, ss_loop (S fuel) (c :: d :: s) t = ss_loop fuel s (copy2 c d t1)) ->
  ~ (normal t /\ plain (s_prev t) (c :: d :: s)) -> step_ok (c :: d :: s) t.
Proof.
  intros L R W E P. exists [Lit c; Lit d], s, (copy2 c d t1). split; [reflexivity|]. split; [cbn; lia|]. split; [exact E|].
  assert (Wc : s_w (copy2 c d t1) = put_out [c; d] (s_w t)). { cbn [copy2 s_w]. rewrite W. apply puts_le_room; [exact R|]. cbn [length] in *. lia. }
  split; [exact Wc|]. split; [reflexivity|]. split; [repeat constructor|]. split.
  - rewrite Wc. apply (inv_copy [c; d]); [cbn; lia|exact L|exact R].
  - intros N Pl. exfalso. now apply P.
Qed.
Lemma step_tagged p s r t t1 : 13 * length s + 10 < 3 * w_rem (s_w t) -> w_ok (s_w t) -> s_w t1 = s_w t -> s = source p ++ r -> well p ->
  (forall c, p <> Lit c) ->
  (forall fuel, ss_loop (S fuel) s t = ss_loop fuel r (tagged (html p) (last (source p) NUL) t1)) ->
  (match p with Sup _ false | Sub _ false => r = [] \/ exists c r', r = c :: r' /\ In c (SP :: TAB :: NL :: B ".,;:!?") | _ => True end) ->
  (normal t -> plain (s_prev t) s -> normal t1) -> step_ok s t.
Proof.
  intros L R W E Wp Np Eq Sr P. exists [p], r, (tagged (html p) (last (source p) NUL) t1).
  assert (Tp : text [p] = source p) by (unfold text; cbn [map concat]; now rewrite app_nil_r).
  assert (Rp : render [p] = html p) by (unfold render; cbn [map concat]; now rewrite app_nil_r).
  rewrite Tp, Rp. split; [exact E|].
  assert (Q : 1 <= length (source p) /\ 3 * length (html p) <= 13 * length (source p) + 10 /\
              (match p with Sup _ false | Sub _ false => True | _ => 3 * length (html p) <= 13 * length (source p) end)).
  { destruct p as [c|x b|x b|x]; [now specialize (Np c)| | |]; destruct Wp as [Nx _]; destruct x as [|c x]; try congruence;
      cbn [source html]; rewrite !app_length; cbn [length B list_ascii_of_string]; try destruct b; cbn [length]; lia. }
  destruct Q as (Q1 & Q2 & Q3). rewrite E, app_length in L.
  assert (Lh : length (html p) <= w_rem (s_w t)).
  { lia. }
  assert (Wt : s_w (tagged (html p) (last (source p) NUL) t1) = put_out (html p) (s_w t)). { cbn [tagged s_w]. rewrite W. now apply puts_le_room. }
  split; [rewrite E, app_length; lia|]. split; [exact Eq|]. split; [exact Wt|]. split; [reflexivity|]. split; [now constructor|]. split.
  - rewrite Wt. split; [now apply put_out_ok|]. rewrite put_out_rem. destruct p as [c|x [|]|x [|]|x]; try (left; lia); right; (split; [lia|exact Sr]).
  - intros N Pl. split; [exact (P N Pl)|]. exists p. split; [reflexivity|]. split; intros ->; now specialize (Np _ eq_refl).
Qed.

Lemma stop_quiet c : In c (SP :: TAB :: NL :: B ".,;:!?") -> ~ In c (B "{%`$^~").
Proof. cbn. intuition (subst; discriminate). Qed.
Lemma quiet_idle prev c s : ~ In c (B "{%`$^~") -> idle prev (Lit c) s.
Proof. intro N. split; intro E; injection E as ->; exfalso; apply N; cbn; tauto. Qed.
Lemma skipn_1 (c : ascii) s : skipn 1 (c :: s) = s.
Proof. reflexivity. Qed.
Lemma opens_spec m c s : opens m (c :: s) = true -> c = m /\ exists d s', s = d :: s' /\ d <> NUL /\ d <> SP /\ d <> TAB /\ d <> NL /\ d <> m.
Proof.
  unfold opens. rewrite is_cons, !Bool.andb_true_iff, !Bool.negb_true_iff. intros ((((A & C) & D) & E) & F). apply ceq_eq in A. split; [exact A|].
  destruct s as [|d s]; [cbn in C; discriminate|]. cbn [at_ nth] in *. exists d, s. split; [reflexivity|]. apply ceq_neq in C, E, F.
  repeat split; auto; intros ->; unfold blank in D; rewrite ceq_refl, ?Bool.orb_true_r in D; discriminate.
Qed.
Lemma opens_no m s : opens m (m :: s) = false -> ~ In NUL s -> no_word m s.
Proof.
  unfold opens. rewrite is_cons, ceq_refl. cbn [andb]. intros H N. destruct s as [|d s]; [now left|]. right. exists d, s. split; [reflexivity|].
  cbn [at_ nth] in H. unfold blank in H. assert (Z : ceq d NUL = false) by (apply ceq_neq; intros ->; apply N; now left). rewrite Z in H. cbn [negb andb] in H.
  unfold ends_word. cbn [In]. destruct (ceq d SP) eqn:E1; [apply ceq_eq in E1; auto|]. destruct (ceq d TAB) eqn:E2; [apply ceq_eq in E2; auto|].
  destruct (ceq d NL) eqn:E3; [apply ceq_eq in E3; auto|]. destruct (ceq d m) eqn:E4; [apply ceq_eq in E4; subst; auto|]. discriminate.
Qed.
Lemma stop_of m r : no_word m r -> is m r = false -> r = [] \/ exists c r', r = c :: r' /\ In c (SP :: TAB :: NL :: B ".,;:!?").
Proof.
  intros [->|(c & r' & -> & I)] H; [now left|]. right. exists c, r'. split; [reflexivity|]. rewrite is_cons in H. apply ceq_neq in H.
  unfold ends_word in I. cbn [In] in *. intuition congruence.
Qed.
Lemma last_app (a b : str) d : b <> [] -> last (a ++ b) d = last b d.
Proof. intro N. destruct (exists_last N) as (x & c & ->). now rewrite app_assoc, !last_last. Qed.
Lemma nonempty_last c (x : str) : x <> [] -> last (c :: x) NUL = last x NUL.
Proof. destruct x; [congruence|reflexivity]. Qed.
Lemma behind_spec m x r p r' : behind m x r = (p, r') -> m <> NUL -> no_word m r -> x <> [] ->
  exists b : bool, r = (if b then [m] else []) ++ r' /\ p = last (m :: x ++ (if b then [m] else [])) NUL /\
     (b = false -> r' = [] \/ exists c q, r' = c :: q /\ In c (SP :: TAB :: NL :: B ".,;:!?")).
Proof.
  unfold behind. intros H Nm Nw Nx. destruct (is m r) eqn:E.
  - injection H as <- <-. apply is_spec in E; [|exact Nm]. destruct E as (q & ->). exists true. split; [reflexivity|]. split; [|discriminate].
    change (m :: x ++ [m]) with ((m :: x) ++ [m]). now rewrite last_last.
  - injection H as <- <-. exists false. split; [reflexivity|]. split; [rewrite app_nil_r; now rewrite nonempty_last|]. intros _. now apply (stop_of m).
Qed.
Lemma step s t : s <> [] -> ~ In NUL s -> inv s (s_w t) -> step_ok s t.
Proof.
  intros Ns Nul I. destruct s as [|c s]; [congruence|]. destruct I as [R [L|[L St]]].
  2:{ destruct St as [St|(c' & s' & E & St)]; [discriminate|]. injection E as <- <-. apply stop_quiet in St.
      apply (step_copy1 c s t (at_line (c :: s) t)); auto; [apply at_line_w|intro; now apply step_quiet|].
      intros N P. split; [now apply at_line_normal|now apply quiet_idle]. }
  assert (L1 : 13 * length (c :: s) < 3 * w_rem (s_w t)) by lia.
  set (t0 := at_line (c :: s) t) in *. assert (W0 : s_w t0 = s_w t) by apply at_line_w. assert (Q0 : s_liquid t0 = s_liquid t) by apply at_line_liquid.
  assert (Pr0 : s_prev t0 = s_prev t) by apply at_line_prev.
  assert (N0 : normal t -> plain (s_prev t) (c :: s) -> normal t0) by apply at_line_normal.
  destruct (negb (s_liquid t0) && ceq c "{" && is "%" s)%bool eqn:C1.
  { assert (E : c = "{"%char /\ exists r, s = "%"%char :: r).
    { rewrite !Bool.andb_true_iff, ceq_eq in C1. split; [apply C1|]. apply is_spec; [discriminate|apply C1]. }
    destruct E as [Ec (r & Es)]. subst c s. apply (step_copy2 _ _ r t (set_liquid true t0)); auto.
    - intro fuel. cbn [ss_loop]. fold t0. rewrite C1. reflexivity.
    - intros [_ (_ & _ & H & _)]. apply (H eq_refl). now exists r. }
  destruct (s_liquid t0) eqn:Lq.
  { assert (Nn : ~ normal t) by (intros (_ & _ & _ & _ & H & _); congruence).
    destruct (ceq c "%" && is "}" s)%bool eqn:C2.
    - assert (E : c = "%"%char /\ exists r, s = "}"%char :: r).
      { rewrite !Bool.andb_true_iff, ceq_eq in C2. split; [apply C2|]. apply is_spec; [discriminate|apply C2]. }
      destruct E as [Ec (r & Es)]. subst c s. apply (step_copy2 _ _ r t (set_liquid false t0)); auto; [|tauto].
      intro fuel. cbn [ss_loop]. fold t0. rewrite Lq, C2. cbn [negb andb]. reflexivity.
    - apply (step_copy1 c s t t0); auto; [|tauto]. intro fuel. cbn [ss_loop]. fold t0. rewrite Lq, C2. reflexivity. }
  cbn [negb andb] in C1.
  set (t2 := at_tick (c :: s) t0) in *. assert (W2 : s_w t2 = s_w t) by (unfold t2; rewrite at_tick_w; exact W0).
  assert (Pr2 : s_prev t2 = s_prev t) by (unfold t2; rewrite at_tick_prev; exact Pr0).
  assert (N2 : normal t -> plain (s_prev t) (c :: s) -> normal t2).
  { intros N P. unfold t2. rewrite at_tick_no; [now apply N0|apply P]. }
  assert (E0 : forall fuel, ss_loop (S fuel) (c :: s) t =
      match at_math (c :: s) t2 with
      | Some (r, t) => ss_loop fuel r t
      | None => if s_code t2 || s_inline t2 || s_indent t2 || s_math t2 || s_display t2 then ss_loop fuel s (copy1 c t2)
                else match at_caret (c :: s) t2 with
                     | Some (r, t) => ss_loop fuel r t
                     | None => match at_tilde (c :: s) t2 with
                               | Some (r, t) => ss_loop fuel r t
                               | None => match at_word (c :: s) t2 with Some (r, t) => ss_loop fuel r t | None => ss_loop fuel s (copy1 c t2) end
                               end
                     end
      end).
  { intro fuel. cbn [ss_loop]. fold t0. rewrite Lq. cbn [negb andb]. rewrite C1. reflexivity. }
  clearbody t2. clear N0 Pr0 W0 Q0 Lq C1. clearbody t0. clear t0.
  destruct (at_math (c :: s) t2) as [[r1 t1]|] eqn:M.
  { unfold at_math in M. destruct (s_code t2 || s_inline t2 || s_indent t2)%bool; [discriminate|]. rewrite !is_cons in M.
    destruct (ceq c "$") eqn:Cd; [|discriminate]. apply ceq_eq in Cd. subst c. cbn [andb] in M.
    assert (Np : ~ plain (s_prev t) ("$"%char :: s)) by (intros (_ & H & _); congruence).
    destruct (ceq (at_ ("$"%char :: s) 1) "$") eqn:Cd.
    - apply ceq_eq in Cd. destruct s as [|d s]; [discriminate|]. cbn in Cd. subst d. injection M as <- <-.
      apply (step_copy2 _ _ s t (flip_display t2)); auto; tauto.
    - destruct (negb (s_display t2)); [|discriminate]. destruct (s_math t2).
      + injection M as <- <-. apply (step_copy1 _ s t (set_math false t2)); auto; tauto.
      + destruct (_ && _)%bool; [|discriminate]. injection M as <- <-. apply (step_copy1 _ s t (set_math true t2)); auto; tauto. }
  destruct (s_code t2 || s_inline t2 || s_indent t2 || s_math t2 || s_display t2)%bool eqn:Fl.
  { apply (step_copy1 c s t t2); auto. intros N P. exfalso. destruct (N2 N P) as (A1 & A2 & A3 & A4 & A5 & A6). rewrite A1, A2, A3, A4, A6 in Fl. discriminate. }
  clear M Fl.
  destruct (at_caret (c :: s) t2) as [[r1 t1]|] eqn:Ca.
  { unfold at_caret in Ca. destruct (opens "^" (c :: s)) eqn:O; [|discriminate]. apply opens_spec in O. destruct O as [-> O]. rewrite !skipn_1 in Ca.
    destruct (match s_prev t2 with Some c => ceq c "[" | None => false end) eqn:Br.
    - injection Ca as <- <-. apply (step_copy1 _ s t t2); auto. intros N P. split; [now apply N2|]. split; [|discriminate]. intros _. left. rewrite <- Pr2.
      destruct (s_prev t2); [|discriminate]. apply ceq_eq in Br. congruence.
    - destruct (word "^" s) as [x r] eqn:Wd. destruct x as [|x0 x]; [discriminate|]. destruct (Nat.leb _ _); [|discriminate].
      destruct (behind "^" (x0 :: x) r) as [p q] eqn:Bh. injection Ca as <- <-. apply word_spec in Wd. destruct Wd as (Es & Fw & Nw).
      apply behind_spec in Bh; [|discriminate|exact Nw|discriminate]. destruct Bh as (b & Er & Ep & St).
      apply (step_tagged (Sup (x0 :: x) b) _ q t t2); auto.
      + cbn [source]. rewrite Es, Er, <- !app_assoc. destruct b; reflexivity.
      + split; [discriminate|exact Fw].
      + discriminate.
      + intro fuel. rewrite E0, Ep. destruct b; reflexivity.
      + destruct b; [exact I|now apply St]. }
  destruct (at_tilde (c :: s) t2) as [[r1 t1]|] eqn:Ti.
  { unfold at_tilde in Ti. rewrite is_cons in Ti. destruct (ceq c "~") eqn:Cc; [|discriminate]. apply ceq_eq in Cc. subst c. rewrite !skipn_1 in Ti.
    destruct (match s_prev t2 with Some c => ceq c "~" | None => false end) eqn:Br; cbn [orb] in Ti.
    - injection Ti as <- <-. apply (step_copy1 _ s t t2); auto. intros N P. split; [now apply N2|]. split; [discriminate|]. intros _. left. rewrite <- Pr2.
      destruct (s_prev t2); [|discriminate]. apply ceq_eq in Br. congruence.
    - destruct (ceq (at_ ("~"%char :: s) 1) "~") eqn:C1.
      + injection Ti as <- <-. apply (step_copy1 _ s t t2); auto. intros N P. split; [now apply N2|]. split; [discriminate|]. intros _. right. right. right.
        apply ceq_eq in C1. destruct s as [|d s]; [discriminate|]. cbn in C1. subst d. exists "~"%char, s. split; [reflexivity|]. cbn. tauto.
      + destruct (ceq (at_ ("~"%char :: s) 1) ">") eqn:C2; [|discriminate]. injection Ti as <- <-. apply (step_copy1 _ s t t2); auto. intros N P. split; [now apply N2|].
        split; [discriminate|]. intros _. right. left. apply ceq_eq in C2. destruct s as [|d s]; [discriminate|]. cbn in C2. subst d. now exists s. }
  destruct (at_word (c :: s) t2) as [[r1 t1]|] eqn:Wo.
  { unfold at_word in Wo. destruct (opens "~" (c :: s)) eqn:O; [|discriminate]. apply opens_spec in O. destruct O as [-> (d & s' & Es0 & Nd0 & Nd1 & Nd2 & Nd3 & Nd4)]. rewrite !skipn_1 in Wo.
    destruct (word "~" s) as [x r] eqn:Wd. apply word_spec in Wd. destruct Wd as (Es & Fw & Nw).
    destruct (if sentence (at_ r 0) then None else closing (s_prev t2) [] s) as [[[y r'] u]|] eqn:Cl.
    - destruct (sentence (at_ r 0)); [discriminate|]. apply closing_spec in Cl. destruct Cl as (x' & Ey & Ecl & Nnl & Sp). cbn [rev app] in Ey. subst x'.
      destruct y as [|y0 y].
      { discriminate. }
      destruct u.
      + destruct (Nat.leb _ _); [|discriminate]. injection Wo as <- <-. apply (step_tagged (Under (y0 :: y)) _ r' t t2); auto.
        * cbn [source]. rewrite Ecl, <- !app_assoc. reflexivity.
        * split; [discriminate|]. split; [exact Nnl|]. apply Sp. discriminate.
        * discriminate.
        * intro fuel. rewrite E0. cbn [source]. rewrite !last_app by discriminate. reflexivity.
      + destruct (Nat.leb _ _); [|discriminate]. injection Wo as <- <-. apply (step_tagged (Sub (y0 :: y) true) _ r' t t2); auto.
        * cbn [source]. rewrite Ecl, <- !app_assoc. reflexivity.
        * split; [discriminate|]. split; [exact Nnl|]. discriminate.
        * discriminate.
        * intro fuel. rewrite E0. cbn [source]. rewrite !last_app by discriminate. reflexivity.
    - destruct x as [|x0 x]; [discriminate|]. destruct (Nat.leb _ _); [|discriminate].
      destruct (behind "~" (x0 :: x) r) as [p q] eqn:Bh. injection Wo as <- <-.
      apply behind_spec in Bh; [|discriminate|exact Nw|discriminate]. destruct Bh as (b & Er & Ep & St).
      apply (step_tagged (Sub (x0 :: x) b) _ q t t2); auto.
      + cbn [source]. rewrite Es, Er, <- !app_assoc. destruct b; reflexivity.
      + split; [discriminate|]. split; [|intros _; exact Fw]. intro Q. apply Fw in Q. apply Q. cbn. tauto.
      + discriminate.
      + intro fuel. rewrite E0, Ep. destruct b; reflexivity.
      + destruct b; [exact I|now apply St]. }
  apply (step_copy1 c s t t2); auto. intros N P. split; [now apply N2|]. split; intro Ec; injection Ec as ->.
  - right. unfold at_caret in Ca. destruct (opens "^" ("^"%char :: s)) eqn:O.
    2:{ apply opens_no; [exact O|]. intro Q. apply Nul. now right. }
    destruct (match s_prev t2 with Some c => ceq c "[" | None => false end); [discriminate|]. rewrite !skipn_1 in Ca.
    destruct (word "^" s) as [x r] eqn:Wd. apply word_spec in Wd. destruct Wd as (Es & Fw & Nw). destruct x as [|x0 x]; [now rewrite Es|].
    exfalso. destruct (behind "^" (x0 :: x) r). destruct (Nat.leb_spec (length (B "<sup>" ++ (x0 :: x) ++ B "</sup>")) (w_rem (s_w t2))) as [Le|Lt]; [discriminate|].
    rewrite W2, !app_length in Lt. rewrite Es in L. cbn [length app B list_ascii_of_string] in L, Lt. rewrite app_length in L. lia.
  - right. right. unfold at_tilde in Ti. rewrite is_cons, ceq_refl in Ti. destruct (_ || _)%bool; [discriminate|]. destruct (ceq _ ">"); [discriminate|].
    unfold at_word in Wo. destruct (opens "~" ("~"%char :: s)) eqn:O.
    2:{ apply opens_no; [exact O|]. intro Q. apply Nul. now right. }
    rewrite !skipn_1 in Wo. destruct (word "~" s) as [x r] eqn:Wd. apply word_spec in Wd. destruct Wd as (Es & Fw & Nw).
    apply opens_spec in O. destruct O as [_ (d & s' & Es0 & _ & _ & _ & _ & Nd)].
    destruct x as [|x0 x]; [now rewrite Es|].
    exfalso. destruct (if sentence (at_ r 0) then None else closing (s_prev t2) [] s) as [[[y r'] u]|] eqn:Cl.
    + destruct (sentence (at_ r 0)); [discriminate|]. apply closing_spec in Cl. destruct Cl as (x' & Ey & Ecl & _). cbn [rev app] in Ey. subst x'.
      destruct y as [|y0 y]; [cbn [app] in Ecl; congruence|].
      destruct u; match type of Wo with context [Nat.leb ?a ?b] => destruct (Nat.leb_spec a b) as [Le|Lt] end; try discriminate;
        rewrite W2, !app_length in Lt; rewrite Ecl in L; cbn [length app B list_ascii_of_string] in L, Lt; rewrite app_length in L; cbn [length] in L; lia.
    + match type of Wo with context [Nat.leb ?a ?b] => destruct (Nat.leb_spec a b) as [Le|Lt] end; [destruct (behind "~" (x0 :: x) r); discriminate|].
      rewrite W2, !app_length in Lt. rewrite Es in L. cbn [length app B list_ascii_of_string] in L, Lt. rewrite app_length in L. lia.
Qed.

(** ** The whole text *)
Lemma text_app a b : text (a ++ b) = text a ++ text b.
Proof. unfold text. now rewrite map_app, concat_app. Qed.
Lemma render_app a b : render (a ++ b) = render a ++ render b.
Proof. unfold render. now rewrite map_app, concat_app. Qed.
Lemma loop_parts fuel : forall s t, length s < fuel -> ~ In NUL s -> inv s (s_w t) ->
  exists l t', ss_loop fuel s t = Some t' /\ text l = s /\ s_w t' = put_out (render l) (s_w t) /\ Forall well l /\
    w_ok (s_w t') /\ 0 < w_rem (s_w t') /\ (normal t -> plain (s_prev t) s -> complete (s_prev t) l).
Proof.
  induction fuel as [|fuel IH]; intros s t L Nul I; [lia|]. destruct s as [|c s].
  - exists [], t. split; [reflexivity|]. split; [reflexivity|]. split; [unfold render; cbn; now rewrite put_out_nil|]. split; [constructor|]. split; [apply I|]. split; [now apply (inv_rem [])|]. constructor.
  - destruct (step (c :: s) t ltac:(discriminate) Nul I) as (l1 & r & t1 & E & Lr & Eq & W & Pr & Fw & I1 & P).
    destruct (IH r t1) as (l2 & t' & E2 & T2 & W2 & F2 & Ok & Rm & P2); [lia|rewrite E in Nul; intro Q; apply Nul; apply in_or_app; now right|exact I1|].
    exists (l1 ++ l2), t'. split; [now rewrite Eq|]. split; [now rewrite text_app, T2, E|]. split; [now rewrite W2, W, put_out_app, render_app|].
    split; [now apply Forall_app|]. split; [exact Ok|]. split; [exact Rm|]. intros N Pl. destruct (P N Pl) as [N1 (p & -> & Id)].
    assert (Tp : text [p] = source p) by (unfold text; cbn [map concat]; now rewrite app_nil_r).
    cbn [app complete]. rewrite T2. split; [apply Id|]. split; [apply Id|]. rewrite <- Tp, <- Pr. apply P2; [exact N1|]. rewrite Pr.
    rewrite E in Pl. apply plain_suffix in Pl. destruct (text [p]) as [|z zs] eqn:Z; [|exact Pl]. exfalso.
    rewrite Tp in Z. destruct p; discriminate.
Qed.
Definition room (n : nat) : nat := Nat.max (n * 5) 64.
Lemma inv_start s : inv s (w_new (room (length s)) (room (length s))).
Proof. split; [apply w_ok_new|]. left. cbn [w_new w_rem]. unfold room. lia. Qed.
Notation start n := (Ss false false false false false false None (w_new (room n) (room n))).
Lemma sup_sub_parts s : ~ In NUL s -> exists l w, sup_sub s = Some w /\ text l = s /\ w_out w = render l /\ w_oob w = false /\ Forall well l /\
  (plain None s -> complete None l).
Proof.
  intro Nul. unfold sup_sub. fold (room (length s)).
  destruct (loop_parts (S (length s)) s (start (length s)) ltac:(lia) Nul (inv_start s)) as (l & t' & -> & T & W & F & Ok & Rm & P).
  exists l, (w_term (s_w t')). split; [reflexivity|]. split; [exact T|]. split; [cbn [w_term w_out]; now rewrite W|]. split; [now apply w_term_safe|]. split; [exact F|].
  apply P. repeat split.
Qed.
Lemma lit_prefix y : forall l b, ~ In "^"%char y -> ~ In "~"%char y -> text l = y ++ b -> exists b', render l = y ++ b'.
Proof.
  induction y as [|c y IH]; intros l b N1 N2 E; [now exists (render l)|]. destruct l as [|p l]; [discriminate|].
  change (text (p :: l)) with (source p ++ text l) in E. destruct p; cbn [source] in E; injection E as <- E; try (exfalso; (apply N1; now left) || (apply N2; now left)).
  destruct (IH l b) as (b' & H); auto; try (intro Q; (apply N1; now right) || (apply N2; now right)). exists b'. match goal with |- render (Lit ?c :: l) = _ => change (c :: render l = c :: y ++ b') end. now rewrite H.
Qed.
Lemma unmarked l : ~ In "^"%char (text l) -> ~ In "~"%char (text l) -> render l = text l.
Proof.
  intros N1 N2. induction l as [|p l IH]; [reflexivity|]. change (text (p :: l)) with (source p ++ text l) in *. change (render (p :: l)) with (html p ++ render l).
  rewrite in_app_iff in N1, N2. destruct p; cbn [source] in *; try (exfalso; (apply N1; left; now left) || (apply N2; left; now left)).
  cbn [html]. rewrite IH; tauto.
Qed.

(** ** Regions *)
Definition big (s : str) (t : ss) : Prop := w_ok (s_w t) /\ 13 * length s + 10 < 3 * w_rem (s_w t).
Definition vrun (x r : str) (t t' : ss) : Prop :=
  (exists k, k <= length x /\ forall fuel, ss_loop (k + fuel) (x ++ r) t = ss_loop fuel r t') /\ s_w t' = put_out x (s_w t) /\ big r t'.
Lemma vrun_nil r t : big r t -> vrun [] r t t.
Proof. intro H. split; [exists 0; split; [cbn; lia|reflexivity]|]. split; [now rewrite put_out_nil|exact H]. Qed.
Lemma vrun_app x y r t t1 t2 : vrun x (y ++ r) t t1 -> vrun y r t1 t2 -> vrun (x ++ y) r t t2.
Proof.
  intros ((k1 & K1 & E1) & W1 & _) ((k2 & K2 & E2) & W2 & Bg). split.
  - exists (k1 + k2). rewrite app_length. split; [lia|]. intro fuel. rewrite <- app_assoc, <- Nat.add_assoc, E1. apply E2.
  - split; [now rewrite W2, W1, put_out_app|exact Bg].
Qed.
Lemma big_put x r w : 1 <= length x -> w_ok w -> 13 * length (x ++ r) + 10 < 3 * w_rem w -> w_ok (put_out x w) /\ 13 * length r + 10 < 3 * w_rem (put_out x w).
Proof. intros L R H. rewrite app_length in H. split; [apply put_out_ok; [exact R|lia]|]. rewrite put_out_rem. lia. Qed.
Lemma vrun1 c r t t1 : big (c :: r) t -> s_w t1 = s_w t -> (forall fuel, ss_loop (S fuel) (c :: r) t = ss_loop fuel r (copy1 c t1)) -> vrun [c] r t (copy1 c t1).
Proof.
  intros [R L] W E. assert (Wc : s_w (copy1 c t1) = put_out [c] (s_w t)). { cbn [copy1 s_w]. rewrite W. apply put_room; [exact R|]. cbn [length] in L. lia. }
  split; [exists 1; split; [cbn; lia|exact E]|]. split; [exact Wc|]. unfold big. rewrite Wc. apply big_put; [cbn; lia|exact R|exact L].
Qed.
Lemma vrun2 c d r t t1 : big (c :: d :: r) t -> s_w t1 = s_w t -> (forall fuel, ss_loop (S fuel) (c :: d :: r) t = ss_loop fuel r (copy2 c d t1)) -> vrun [c; d] r t (copy2 c d t1).
Proof.
  intros [R L] W E. assert (Wc : s_w (copy2 c d t1) = put_out [c; d] (s_w t)). { cbn [copy2 s_w]. rewrite W. apply puts_le_room; [exact R|]. cbn [length] in *. lia. }
  split; [exists 1; split; [cbn; lia|exact E]|]. split; [exact Wc|]. unfold big. rewrite Wc. apply big_put; [cbn; lia|exact R|exact L].
Qed.
Definition hold (t : ss) : Prop := (s_code t || s_inline t || s_math t || s_display t)%bool = true.
Lemma at_line_hold s t : hold t -> hold (at_line s t).
Proof. unfold hold, at_line. destruct (s_prev t) as [c|]; [destruct (ceq c NL)|]; exact (fun H => H). Qed.
Lemma hold_flags t : hold t -> (s_code t || s_inline t || s_indent t || s_math t || s_display t)%bool = true.
Proof. unfold hold. destruct (s_code t), (s_inline t), (s_indent t), (s_math t), (s_display t); auto. Qed.
Lemma no_dollar_math c s t : c <> "$"%char -> at_math (c :: s) t = None.
Proof. intro N. unfold at_math. rewrite !is_no by exact N. cbn [andb]. now destruct (s_code t || s_inline t || s_indent t)%bool. Qed.
Lemma hold_run n : forall x r t, length x <= n -> hold t -> ~ In "`"%char x -> (~ In "$"%char x \/ (s_code t || s_inline t)%bool = true) -> (forall c q, r = c :: q -> c <> "%"%char /\ c <> "}"%char) -> big (x ++ r) t ->
  exists t', vrun x r t t' /\ hold t'.
Proof.
  induction n as [|n IH]; intros x r t Ln H N1 N2 Hr Bg; (destruct x as [|c x]; [exists t; split; [now apply vrun_nil|exact H]|]); [cbn in Ln; lia|].
  cbn [length] in Ln. cbn [app] in Bg.
  assert (Nc1 : c <> "`"%char) by (intros ->; apply N1; now left). 
  set (t0 := at_line (c :: x ++ r) t). assert (W0 : s_w t0 = s_w t) by apply at_line_w. assert (H0 : hold t0) by now apply at_line_hold.
  assert (Cf : (s_code t0 || s_inline t0)%bool = (s_code t || s_inline t)%bool).
  { unfold t0, at_line. destruct (s_prev t) as [d|]; [destruct (ceq d NL)|]; reflexivity. }
  assert (One : (forall fuel, ss_loop (S fuel) (c :: x ++ r) t = ss_loop fuel (x ++ r) (copy1 c t0)) -> exists t', vrun (c :: x) r t t' /\ hold t').
  { intro E. pose proof (vrun1 c (x ++ r) t t0 Bg W0 E) as V. destruct (IH x r (copy1 c t0)) as (t' & V' & H'); auto.
    - lia.
    - intro; apply N1; now right.
    - destruct N2 as [N2|N2]; [left; intro; apply N2; now right|right; cbn [copy1 s_code s_inline]; now rewrite Cf].
    - apply V.
    - exists t'. split; [|exact H']. apply (vrun_app [c] x r t _ t' V V'). }
  assert (Two : forall d x' b, x = d :: x' -> (forall fuel, ss_loop (S fuel) (c :: x ++ r) t = ss_loop fuel (x' ++ r) (copy2 c d (set_liquid b t0))) -> exists t', vrun (c :: x) r t t' /\ hold t').
  { intros d x' b -> E. pose proof (vrun2 c d (x' ++ r) t (set_liquid b t0) Bg W0 E) as V.
    destruct (IH x' r (copy2 c d (set_liquid b t0))) as (t' & V' & H'); auto.
    - cbn in Ln. lia.
    - intro; apply N1; now right; right.
    - destruct N2 as [N2|N2]; [left; intro; apply N2; now right; right|right; cbn [copy2 set_liquid s_code s_inline]; now rewrite Cf].
    - apply V.
    - exists t'. split; [|exact H']. apply (vrun_app [c; d] x' r t _ t' V V'). }
  destruct (negb (s_liquid t0) && ceq c "{" && is "%" (x ++ r))%bool eqn:C1.
  { pose proof C1 as C0. rewrite !Bool.andb_true_iff, ceq_eq in C0. destruct C0 as [[_ ->] C0]. apply is_spec in C0; [|discriminate]. destruct C0 as (q & C0).
    destruct x as [|d x]; [cbn [app] in C0; now destruct (Hr _ _ C0)|]. injection C0 as -> C0. apply (Two "%"%char x true eq_refl). intro fuel. cbn [ss_loop app]. cbn [app] in t0. fold t0.
    cbn [app] in C1. rewrite C1. reflexivity. }
  destruct (s_liquid t0) eqn:Lq.
  { destruct (ceq c "%" && is "}" (x ++ r))%bool eqn:C2.
    - pose proof C2 as C0. rewrite !Bool.andb_true_iff, ceq_eq in C0. destruct C0 as [-> C0]. apply is_spec in C0; [|discriminate]. destruct C0 as (q & C0).
      destruct x as [|d x]; [cbn [app] in C0; now destruct (Hr _ _ C0)|]. injection C0 as -> C0. apply (Two "}"%char x false eq_refl). intro fuel. cbn [ss_loop app]. cbn [app] in t0. fold t0.
      cbn [app] in C2. rewrite Lq, C2. reflexivity.
    - apply One. intro fuel. cbn [ss_loop]. fold t0. rewrite Lq, C2. reflexivity. }
  apply One. intro fuel. cbn [ss_loop]. fold t0. rewrite Lq. cbn [negb andb] in *. rewrite C1. rewrite at_tick_no by exact Nc1. 
  assert (at_math (c :: x ++ r) t0 = None) as ->.
  { destruct N2 as [N2|N2]; [apply no_dollar_math; intros ->; apply N2; now left|]. unfold at_math. rewrite <- Cf in N2. now rewrite N2. }
  now rewrite (hold_flags t0 H0).
Qed.
Lemma calm_step c s t : normal t -> ~ In c (B "`${^~") -> (line_start (s_prev t) -> c <> SP /\ c <> TAB) ->
  (forall fuel, ss_loop (S fuel) (c :: s) t = ss_loop fuel s (copy1 c (at_line (c :: s) t))) /\ normal (copy1 c (at_line (c :: s) t)).
Proof.
  intros N Q Ls. assert (N0 : normal (at_line (c :: s) t)).
  { unfold at_line. assert (Id : line_start (s_prev t) -> indented (c :: s) = false).
    { intro H. destruct (Ls H) as [A C]. unfold indented. rewrite is_no by exact C. cbn [B list_ascii_of_string starts]. rewrite (proj2 (ceq_neq " " c)) by (intros E; apply A; now rewrite <- E). reflexivity. }
    destruct (s_prev t) as [d|] eqn:E; [destruct (ceq d NL) eqn:Ed|].
    - apply ceq_eq in Ed as ->. unfold normal in *. cbn [s_code s_inline s_math s_display s_liquid s_indent]. rewrite Id by now right. tauto.
    - exact N.
    - unfold normal in *. cbn [s_code s_inline s_math s_display s_liquid s_indent]. rewrite Id by now left. tauto. }
  split; [|exact N0]. intro fuel. destruct N0 as (A1 & A2 & A3 & A4 & A5 & A6). cbn [ss_loop]. rewrite A5.
  assert (G : forall d, In d (B "`${^~") -> ceq c d = false) by (intros d I; apply ceq_neq; intros ->; now apply Q).
  rewrite (G "{"%char) by (cbn; tauto). cbn [negb andb]. rewrite at_tick_no by (apply ceq_neq; apply G; cbn; tauto).
  rewrite no_dollar_math by (apply ceq_neq; apply G; cbn; tauto). rewrite A1, A2, A3, A4, A6. cbn [orb].
  unfold at_caret, at_tilde, at_word, opens. rewrite !is_cons. rewrite (G "^"%char), (G "~"%char) by (cbn; tauto). reflexivity.
Qed.
Lemma calm_run a : forall r t, normal t -> calm (s_prev t) a -> big (a ++ r) t -> exists t', vrun a r t t' /\ normal t' /\ (s_prev t' = None \/ exists c, s_prev t' = Some c).
Proof.
  induction a as [|c a IH]; intros r t N C Bg.
  - exists t. split; [now apply vrun_nil|]. split; [exact N|]. destruct (s_prev t); eauto.
  - destruct C as (Q & Ls & C). destruct (calm_step c (a ++ r) t N Q Ls) as [E N1]. pose proof (vrun1 c (a ++ r) t _ Bg (at_line_w _ _) E) as V.
    destruct (IH r (copy1 c (at_line (c :: a ++ r) t))) as (t' & V' & H'); [exact N1|exact C|apply V|]. exists t'. split; [|exact H'].
    exact (vrun_app [c] a r t _ t' V V').
Qed.
Lemma at_line_opens c s t : normal t -> In c (B "`${") -> normal (at_line (c :: s) t).
Proof.
  intros N I. assert (Id : indented (c :: s) = false). { cbn in I. destruct I as [<-|[<-|[<-|[]]]]; reflexivity. }
  unfold at_line. destruct (s_prev t) as [d|]; [destruct (ceq d NL)|]; try exact N; unfold normal in *; cbn [s_code s_inline s_math s_display s_liquid s_indent]; rewrite Id; tauto.
Qed.
Lemma tick_in_code s t : s_code t = true -> s_liquid t = false -> (forall r, s <> B "``" ++ r) ->
  (forall fuel, ss_loop (S fuel) (B "`" ++ s) t = ss_loop fuel s (copy1 "`" (at_line (B "`" ++ s) t))).
Proof.
  intros Cd Lq Nt fuel. change (B "`" ++ s) with ("`"%char :: s). cbn [ss_loop]. rewrite at_line_liquid, Lq. cbn [negb andb ceq]. replace (ceq "`" "{") with false by reflexivity. cbn [andb].
  assert (Cd0 : s_code (at_line ("`"%char :: s) t) = true).
  { unfold at_line. destruct (s_prev t) as [d|]; [destruct (ceq d NL)|]; exact Cd. }
  set (t0 := at_line ("`"%char :: s) t) in *.
  assert (Tk : at_tick ("`"%char :: s) t0 = t0).
  { unfold at_tick. rewrite is_cons, ceq_refl, Cd0. destruct (_ && _)%bool eqn:E; [|reflexivity]. exfalso. rewrite Bool.andb_true_iff, !ceq_eq in E. destruct E as [E1 E2].
    destruct s as [|c [|d s]]; try discriminate. cbn in E1, E2. subst. now apply (Nt s). }
  rewrite Tk. rewrite no_dollar_math by discriminate. rewrite Cd0. reflexivity.
Qed.
Lemma liquid_run x : forall r t, s_liquid t = true -> (forall a b, x ++ B "%" <> a ++ B "%}" ++ b) -> big (x ++ B "%}" ++ r) t -> exists t', vrun x (B "%}" ++ r) t t'.
Proof.
  induction x as [|c x IH]; intros r t Lq Nx Bg; [exists t; now apply vrun_nil|].
  assert (E : forall fuel, ss_loop (S fuel) (c :: x ++ B "%}" ++ r) t = ss_loop fuel (x ++ B "%}" ++ r) (copy1 c (at_line (c :: x ++ B "%}" ++ r) t))).
  { intro fuel. cbn [ss_loop]. rewrite at_line_liquid, Lq. cbn [negb andb]. destruct (ceq c "%" && is "}" (x ++ B "%}" ++ r))%bool eqn:C; [|reflexivity]. exfalso.
    rewrite Bool.andb_true_iff, ceq_eq in C. destruct C as [-> C]. apply is_spec in C; [|discriminate]. destruct C as (q & C). destruct x as [|d x]; [discriminate|].
    injection C as -> _. apply (Nx [] (x ++ B "%")). reflexivity. }
  pose proof (vrun1 c (x ++ B "%}" ++ r) t _ Bg (at_line_w _ _) E) as V.
  destruct (IH r (copy1 c (at_line (c :: x ++ B "%}" ++ r) t))) as (t' & V').
  - cbn [copy1 s_liquid]. now rewrite at_line_liquid.
  - intros a b Q. apply (Nx (c :: a) b). cbn [app]. now rewrite Q.
  - apply V.
  - exists t'. exact (vrun_app [c] x _ t _ t' V V').
Qed.
Lemma region_run g b t : normal t -> region_ok g -> big (region_text g ++ b) t -> exists a c t', region_text g = a ++ c /\ vrun a (c ++ b) t t' /\ ~ In "^"%char c /\ ~ In "~"%char c.
Proof.
  intros N Ok Bg.
  assert (Fin : forall o x c q t1, region_text g = o ++ x ++ c :: q -> c <> "%"%char -> c <> "}"%char -> ~ In "^"%char (c :: q) -> ~ In "~"%char (c :: q) ->
           vrun o (x ++ c :: q ++ b) t t1 -> hold t1 -> ~ In "`"%char x -> (~ In "$"%char x \/ (s_code t1 || s_inline t1)%bool = true) ->
           exists a c t', region_text g = a ++ c /\ vrun a (c ++ b) t t' /\ ~ In "^"%char c /\ ~ In "~"%char c).
  { intros o x c q t1 E C1 C2 N1 N2 V1 H Nx Nd. destruct (hold_run (length x) x (c :: q ++ b) t1) as (t' & V & _); auto; [intros c' q' E'; injection E' as <- _; now split|apply V1|].
    exists (o ++ x), (c :: q), t'. split; [now rewrite <- app_assoc|]. split; [|now split]. exact (vrun_app _ _ _ _ _ _ V1 V). }
  pose proof Bg as [R L].
  destruct g as [x|x|x|x|x]; cbn [region_ok region_text] in *.
  - (* code span *)
    destruct x as [|x0 x].
    { exists [], (B "``"), t. split; [reflexivity|]. split; [now apply vrun_nil|]. split; cbn; intuition discriminate. }
    set (s := (x0 :: x) ++ "`"%char :: b). assert (N0 : normal (at_line ("`"%char :: s) t)) by (apply at_line_opens; [exact N|cbn; tauto]).
    destruct N0 as (A1 & A2 & A3 & A4 & A5 & A6).
    assert (Nx : x0 <> "`"%char) by (intros ->; apply Ok; now left).
    assert (Tk : at_tick ("`"%char :: s) (at_line ("`"%char :: s) t) = Ss false true false false false false (s_prev t) (s_w t)).
    { unfold at_tick. rewrite is_cons, ceq_refl. assert (ceq (at_ ("`"%char :: s) 1) "`" = false) as -> by (apply ceq_neq; exact Nx). cbn [andb].
      rewrite A1, A2, A3, A4, A5, A6, at_line_w, at_line_prev. reflexivity. }
    apply (Fin (B "`") (x0 :: x) "`"%char [] (copy1 "`" (Ss false true false false false false (s_prev t) (s_w t))) eq_refl); try discriminate; try (cbn; intuition discriminate).
    + apply vrun1; [rewrite <- !app_assoc in Bg; exact Bg|reflexivity|]. intro fuel. change ((x0 :: x) ++ "`"%char :: [] ++ b) with s. cbn [ss_loop]. rewrite A5. cbn [negb andb]. replace (ceq "`" "{") with false by reflexivity. cbn [andb].
      rewrite Tk. rewrite no_dollar_math by discriminate. reflexivity.
    + reflexivity.
    + exact Ok.
  - (* fenced *)
    destruct Ok as [Ne Ok]. destruct x as [|x0 x]; [congruence|]. assert (Nx : x0 <> "`"%char) by (intros ->; apply Ok; now left).
    set (s2 := (x0 :: x) ++ "`"%char :: "`"%char :: "`"%char :: b). set (s := "`"%char :: "`"%char :: s2).
    assert (N0 : normal (at_line ("`"%char :: s) t)) by (apply at_line_opens; [exact N|cbn; tauto]). destruct N0 as (A1 & A2 & A3 & A4 & A5 & A6).
    set (t1 := Ss true false false false false false (s_prev t) (s_w t)).
    assert (Tk : at_tick ("`"%char :: s) (at_line ("`"%char :: s) t) = t1).
    { unfold at_tick. rewrite is_cons, ceq_refl. replace (ceq (at_ ("`"%char :: s) 1) "`" && ceq (at_ ("`"%char :: s) 2) "`")%bool with true by reflexivity.
      rewrite A1, A2, A3, A4, A5, A6, at_line_w, at_line_prev. reflexivity. }
    assert (V1 : vrun ["`"%char] s t (copy1 "`" t1)).
    { apply vrun1; [|reflexivity|].
      - unfold s, s2. rewrite <- !app_assoc in Bg. exact Bg.
      - intro fuel. cbn [ss_loop]. rewrite A5. cbn [negb andb]. replace (ceq "`" "{") with false by reflexivity. cbn [andb].
        rewrite Tk. rewrite no_dollar_math by discriminate. reflexivity. }
    assert (V2 : vrun ["`"%char] ("`"%char :: s2) (copy1 "`" t1) (copy1 "`" (at_line (B "`" ++ "`"%char :: s2) (copy1 "`" t1)))).
    { apply vrun1; [apply V1|apply at_line_w|]. apply (tick_in_code ("`"%char :: s2)); [reflexivity|reflexivity|]. intros r Q. injection Q as Q. congruence. }
    set (t2 := copy1 "`" (at_line (B "`" ++ "`"%char :: s2) (copy1 "`" t1))) in *.
    assert (C2 : s_code t2 = true /\ s_liquid t2 = false) by (split; reflexivity).
    assert (V3 : vrun ["`"%char] s2 t2 (copy1 "`" (at_line (B "`" ++ s2) t2))).
    { apply vrun1; [apply V2|apply at_line_w|]. apply (tick_in_code s2); [reflexivity|reflexivity|]. intros r Q. injection Q as Q. congruence. }
    apply (Fin (B "```") (x0 :: x) "`"%char (B "``") (copy1 "`" (at_line (B "`" ++ s2) t2)) eq_refl); try discriminate; try (cbn; intuition discriminate).
    + apply (vrun_app [_] [_; _] _ _ _ _ V1). exact (vrun_app [_] [_] _ _ _ _ V2 V3).
    + exact Ok.
  - (* math *)
    destruct Ok as ((x0 & x' & -> & B1 & B2 & B3 & B4) & O1 & O2).
    set (s := (x0 :: x') ++ "$"%char :: b). assert (N0 : normal (at_line ("$"%char :: s) t)) by (apply at_line_opens; [exact N|cbn; tauto]).
    set (t0 := at_line ("$"%char :: s) t) in *. destruct N0 as (A1 & A2 & A3 & A4 & A5 & A6).
    assert (Nx : x0 <> "$"%char) by (intros ->; apply O2; now left).
    apply (Fin (B "$") (x0 :: x') "$"%char [] (copy1 "$" (set_math true t0)) eq_refl); try discriminate; try (cbn; intuition discriminate).
    + apply vrun1; [rewrite <- !app_assoc in Bg; exact Bg|apply at_line_w|]. intro fuel. change ((x0 :: x') ++ "$"%char :: [] ++ b) with s. cbn [ss_loop]. fold t0. rewrite A5. cbn [negb andb].
      replace (ceq "$" "{") with false by reflexivity. cbn [andb]. rewrite at_tick_no by discriminate. unfold at_math. rewrite A1, A2, A3, A4, A6. cbn [orb negb]. rewrite !is_cons, ceq_refl. cbn [andb].
      change (at_ ("$"%char :: s) 1) with x0. unfold blank. rewrite (proj2 (ceq_neq x0 "$")), (proj2 (ceq_neq x0 NUL)), (proj2 (ceq_neq x0 SP)), (proj2 (ceq_neq x0 TAB)), (proj2 (ceq_neq x0 NL)) by assumption.
      reflexivity.
    + unfold hold. cbn [copy1 set_math s_code s_inline s_math s_display]. now rewrite Bool.orb_true_r.
    + exact O1.
    + left. exact O2.
  - (* display *)
    destruct Ok as [O1 O2]. set (s := x ++ "$"%char :: "$"%char :: b).
    assert (N0 : normal (at_line ("$"%char :: "$"%char :: s) t)) by (apply at_line_opens; [exact N|cbn; tauto]).
    set (t0 := at_line ("$"%char :: "$"%char :: s) t) in *. destruct N0 as (A1 & A2 & A3 & A4 & A5 & A6).
    apply (Fin (B "$$") x "$"%char (B "$") (copy2 "$" "$" (flip_display t0)) eq_refl); try discriminate; try (cbn; intuition discriminate).
    + apply vrun2; [rewrite <- !app_assoc in Bg; exact Bg|apply at_line_w|]. intro fuel. change (x ++ "$"%char :: B "$" ++ b) with s. cbn [ss_loop]. fold t0. rewrite A5. cbn [negb andb].
      replace (ceq "$" "{") with false by reflexivity. cbn [andb]. rewrite at_tick_no by discriminate. unfold at_math. rewrite A1, A2, A6. reflexivity.
    + unfold hold. cbn [copy2 flip_display s_code s_inline s_math s_display]. rewrite A4. now rewrite !Bool.orb_true_r.
  - (* liquid *)
    set (s := x ++ B "%}" ++ b).
    assert (N0 : normal (at_line ("{"%char :: "%"%char :: s) t)) by (apply at_line_opens; [exact N|cbn; tauto]).
    set (t0 := at_line ("{"%char :: "%"%char :: s) t) in *. destruct N0 as (A1 & A2 & A3 & A4 & A5 & A6).
    assert (V1 : vrun ["{"%char; "%"%char] s t (copy2 "{" "%" (set_liquid true t0))).
    { apply vrun2; [unfold s; rewrite <- !app_assoc in Bg; exact Bg|apply at_line_w|]. intro fuel. cbn [ss_loop]. fold t0. rewrite A5. reflexivity. }
    destruct (liquid_run x b (copy2 "{" "%" (set_liquid true t0))) as (t' & V2); [reflexivity|exact Ok|apply V1|].
    exists (B "{%" ++ x), (B "%}"), t'. split; [now rewrite <- app_assoc|]. split; [exact (vrun_app _ _ _ _ _ _ V1 V2)|]. split; cbn; intuition discriminate.
Qed.
Lemma sup_sub_region a g b : ~ In NUL (a ++ region_text g ++ b) -> calm None a -> region_ok g ->
  exists w o, sup_sub (a ++ region_text g ++ b) = Some w /\ w_out w = a ++ region_text g ++ o.
Proof.
  intros Nul C Ok. set (s := a ++ region_text g ++ b) in *.
  assert (B0 : big s (start (length s))). { split; [apply w_ok_new|]. cbn [s_w w_new w_rem]. unfold room. lia. }
  destruct (calm_run a (region_text g ++ b) (start (length s))) as (t1 & V1 & N1 & _); [repeat split|exact C|exact B0|].
  destruct (region_run g b t1 N1 Ok) as (x & c & t2 & E & V2 & Nc1 & Nc2); [apply V1|].
  assert (V : vrun (a ++ x) (c ++ b) (start (length s)) t2).
  { apply (vrun_app a x (c ++ b) _ t1 t2); [|exact V2]. rewrite app_assoc, <- E. exact V1. }
  destruct V as ((k & K & Ek) & W & Bg).
  assert (Es : s = (a ++ x) ++ c ++ b) by (unfold s; now rewrite E, <- !app_assoc).
  assert (Ls : length s = length (a ++ x) + length (c ++ b)) by (rewrite Es at 1; now rewrite app_length).
  destruct (loop_parts (S (length s) - k) (c ++ b) t2) as (l & t' & E2 & T2 & W2 & _).
  - lia.
  - intro Q. apply Nul. rewrite Es. apply in_or_app. now right.
  - split; [apply Bg|left; apply Bg].
  - destruct (lit_prefix c l b Nc1 Nc2 T2) as (o & Ho).
    exists (w_term (s_w t')), o. split.
    + unfold sup_sub. fold (room (length s)). replace (S (length s)) with (k + (S (length s) - k)) by lia. rewrite Es at 2. rewrite Ek, E2. reflexivity.
    + cbn [w_term w_out]. rewrite W2, W. cbn [put_out w_out s_w w_new app]. rewrite Ho, E, <- !app_assoc. reflexivity.
Qed.
