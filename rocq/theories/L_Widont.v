(** Lemmas for C219-C222. *)
From Verif Require Import Base BaseL M_Pass S_Pass M_Widont S_Widont L_Divs L_Divs2 L_Pass.
Local Arguments strstr : simpl never.
Local Arguments strchr : simpl never.

(** ** The last words *)
Lemma white_at_spec (t : str) (k : nat) : k < length t -> (white_at t k <-> blank (at_ t k) = true).
Proof.
  intros L. rewrite blank_white. unfold white_at, at_. split.
  - intros (c & E & W). apply nth_error_nth with (d := NUL) in E. rewrite E. exact W.
  - intros W. exists (nth k t NUL). split; [apply nth_error_nth'; exact L|exact W].
Qed.
Lemma white_in t k : white_at t k -> k < length t.
Proof. intros (c & E & _). apply nth_error_Some. congruence. Qed.
Lemma text_end_total t : exists m, text_end t m.
Proof.
  assert (H : forall n, n <= length t -> exists m, m <= n /\ (forall k, m <= k < n -> white_at t k) /\ (m = 0 \/ ~ white_at t (m - 1))).
  { induction n as [|n IH]; intros L; [exists 0; repeat split; [lia|intros; lia|left; reflexivity]|].
    destruct (blank (at_ t n)) eqn:E.
    - destruct IH as (m & Lm & W & D); [lia|]. exists m. split; [lia|]. split; [|exact D]. intros k K. destruct (Nat.eq_dec k n) as [->|X]; [apply white_at_spec; [lia|exact E]|apply W; lia].
    - exists (S n). split; [lia|]. split; [intros; lia|]. right. intros W. replace (S n - 1) with n in W by lia. apply white_at_spec in W; [congruence|lia]. }
  destruct (H (length t)) as (m & L & W & D); [lia|]. exists m. split; [exact L|]. split; [exact W|exact D].
Qed.
Section words.
Variables (t : str) (m : nat).
Hypothesis (Te : text_end t m).
Let n := length t.
Lemma trailing : forall i fw, m <= i <= n -> exists fw', scan i t n (Scan i i 0 fw) = scan m t n (Scan m m 0 fw').
Proof.
  destruct Te as (L & W & D). induction i as [|j IH]; intros fw H; [assert (m = 0) as -> by lia; eauto|].
  destruct (Nat.eq_dec m (S j)) as [->|X]; [eauto|]. cbn [scan sc_start sc_end sc_len sc_first]. rewrite (proj1 (white_at_spec t j (ltac:(unfold n in *; lia)))) by (apply W; unfold n in *; lia).
  destruct (S j <? n) eqn:Q; cbn [sc_len Nat.eqb]; [rewrite Nat.sub_diag|]; apply IH; lia.
Qed.
Definition Inv (i : nat) (st : scan_st) : Prop := i <= m /\ sc_start st = i /\ i <= sc_end st <= m /\ (forall k, i <= k < sc_end st -> ~ white_at t k) /\
  ((sc_end st = m /\ sc_len st = 0) \/ (sc_end st < m /\ white_at t (sc_end st) /\ sc_len st = m - (sc_end st + 1) /\ 0 < sc_len st /\ sc_first st = sc_end st + 1)) /\
  (forall c, i < c < m -> white_at t (c - 1) -> (exists k, c <= k < m /\ white_at t k) -> m - c <= 10).
Lemma scan_inv : forall i st, Inv i st -> let st' := scan i t n st in Inv 0 st' \/ (10 < sc_len st' /\ Kept t m (sc_first st')).
Proof.
  pose proof Te as (L & W & D). fold n in L, W. induction i as [|j IH]; intros [e s len f] (I1 & I2 & I3 & I4 & I5 & I6); cbn [sc_start sc_end sc_len sc_first] in *; [left; exact (conj I1 (conj I2 (conj I3 (conj I4 (conj I5 I6)))))|]. subst s. cbn zeta. cbn [scan sc_start sc_end sc_len sc_first].
  destruct (blank (at_ t j)) eqn:Bl.
  - assert (Wj : white_at t j) by (apply white_at_spec; [unfold n in *; lia|exact Bl]).
    assert (Lt : S j < m). { destruct (Nat.eq_dec (S j) m) as [E|X]; [|lia]. exfalso. destruct D as [D|D]; [lia|]. apply D. rewrite <- E. replace (S j - 1) with j by lia. exact Wj. }
    rewrite (proj2 (Nat.ltb_lt _ _)) by lia. destruct I5 as [[-> ->]|(E1 & E2 & E3 & E4 & E5)].
    + cbn [Nat.eqb]. apply IH. repeat split; cbn [sc_start sc_end sc_len sc_first]; try lia; [|].
      * right. repeat split; try lia. exact Wj.
      * intros c C1 C2 (k & K1 & K2). destruct (Nat.eq_dec c (S j)) as [->|X]; [exfalso; apply (I4 k); [lia|exact K2]|]. apply I6; [lia|exact C2|exists k; split; assumption].
    + destruct len as [|len]; [lia|]. cbn [Nat.eqb]. destruct (10 <? S len + 1 + (e - S j)) eqn:Q.
      * right. cbn [sc_len sc_first]. apply Nat.ltb_lt in Q. split; [exact Q|]. split; [exact Te|]. split; [lia|]. split; [right; replace (S j - 1) with j by lia; exact Wj|]. split.
        -- right. split; [lia|]. left. exists e. split; [lia|exact E2].
        -- intros c' C1 C2 (Q1 & Q2). destruct C2 as [C2|C2]; [lia|]. destruct Q2 as [Q2|Q2]; [specialize (I6 c' C1 C2 Q2); lia|]. apply (Q2 j); [lia|exact Wj].
      * apply Nat.ltb_ge in Q. apply IH. repeat split; cbn [sc_start sc_end sc_len sc_first]; try lia.
        right. repeat split; try lia. exact Wj.
  - assert (Wj : ~ white_at t j) by (intros X; apply white_at_spec in X; [congruence|unfold n in *; lia]).
    assert (Ee : (if S j =? n then S j else e) = e) by (destruct (S j =? n) eqn:Q; [apply Nat.eqb_eq in Q; lia|reflexivity]). rewrite Ee. apply IH. repeat split; cbn [sc_start sc_end sc_len sc_first]; try lia.
    + intros k K. destruct (Nat.eq_dec k j) as [->|X]; [exact Wj|apply I4; lia].
    + exact I5.
    + intros c C1 C2 C3. destruct (Nat.eq_dec c (S j)) as [->|X]; [exfalso; apply Wj; replace (S j - 1) with j in C2 by lia; exact C2|]. apply I6; [lia|exact C2|exact C3].
Qed.
Lemma words_spec : if m =? 0 then last_words t = None else exists c, last_words t = Some c /\ Kept t m c.
Proof.
  pose proof Te as (L & W & D). fold n in L, W. unfold last_words. fold n. destruct (trailing n n) as [fw E]; [lia|]. cbv zeta. rewrite E. destruct (m =? 0) eqn:M.
  - apply Nat.eqb_eq in M. rewrite M. cbn [scan sc_start sc_len sc_end]. destruct (0 <? n); reflexivity.
  - apply Nat.eqb_neq in M. assert (I : Inv m (Scan m m 0 fw)) by (repeat split; cbn [sc_start sc_end sc_len sc_first]; try lia; left; auto).
    pose proof (scan_inv m _ I) as P. cbv zeta in P. destruct (scan m t n (Scan m m 0 fw)) as [e s len f]. cbn [sc_len sc_first] in P. cbn [sc_start sc_end sc_len sc_first]. destruct P as [P|[P1 P2]].
    + destruct P as (J1 & J2 & J3 & J4 & J5 & J6). cbn [sc_start sc_end sc_len sc_first] in *. subst s. rewrite (proj2 (Nat.ltb_lt 0 n)) by lia. cbn [andb]. destruct J5 as [[-> ->]|(E1 & E2 & E3 & E4 & E5)].
      * cbn [Nat.eqb sc_len sc_first]. rewrite (proj2 (Nat.ltb_lt 0 (m - 0))), (proj2 (Nat.ltb_lt 0 n)) by lia. exists 0. split; [reflexivity|]. split; [exact Te|]. split; [lia|]. split; [left; reflexivity|]. split; [left; reflexivity|].
        intros c C1 C2 _. destruct C2 as [C2|C2]; [lia|]. apply (J4 (c - 1)); [lia|exact C2].
      * rewrite (proj2 (Nat.eqb_neq len 0)), (proj2 (Nat.ltb_lt 0 len)) by lia. cbn [andb]. destruct (len <=? 10) eqn:Q; cbn [sc_len sc_first andb].
        -- apply Nat.leb_le in Q. rewrite (proj2 (Nat.ltb_lt 0 (len + 1 + (e - 0)))), (proj2 (Nat.ltb_lt 0 n)) by lia. exists 0. split; [reflexivity|]. split; [exact Te|]. split; [lia|]. split; [left; reflexivity|]. split; [left; reflexivity|].
           intros c C1 C2 (Q1 & Q2). destruct C2 as [C2|C2]; [lia|]. destruct Q2 as [Q2|Q2]; [specialize (J6 c C1 C2 Q2); lia|].
           assert (e <= c - 1) by (destruct (Nat.le_gt_cases e (c - 1)); [assumption|exfalso; apply (J4 (c - 1)); [lia|exact C2]]).
           destruct (Nat.eq_dec e (c - 1)) as [X|X]; [lia|]. apply (Q2 e); [lia|exact E2].
        -- apply Nat.leb_gt in Q. rewrite E5. rewrite (proj2 (Nat.ltb_lt 0 len)), (proj2 (Nat.ltb_lt (e + 1) n)) by lia. exists (e + 1). split; [reflexivity|]. split; [exact Te|]. split; [lia|]. split; [right; replace (e + 1 - 1) with e by lia; exact E2|]. split.
           ++ right. split; [lia|]. right. intros k K. apply J4. lia.
           ++ intros c C1 C2 (Q1 & Q2). destruct C2 as [C2|C2]; [lia|]. destruct Q2 as [Q2|Q2]; [specialize (J6 c (ltac:(lia)) C2 Q2); lia|]. apply (Q2 e); [lia|exact E2].
    + rewrite (proj2 (Nat.eqb_neq len 0)) by lia. rewrite andb_false_r. rewrite (proj2 (Nat.leb_gt len 10)) by lia. rewrite andb_false_r. cbn [sc_len sc_first]. pose proof P2 as (_ & C & _). rewrite (proj2 (Nat.ltb_lt 0 len)), (proj2 (Nat.ltb_lt f n)) by lia. exists f. split; [reflexivity|exact P2].
Qed.
End words.
Lemma blank_text t : text_end t 0 <-> Forall white t.
Proof.
  split.
  - intros (_ & W & _). apply Forall_forall. intros c I. apply In_nth_error in I as [k E]. destruct (W k) as (c' & E' & Wc); [split; [lia|apply nth_error_Some; congruence]|]. congruence.
  - intros F. split; [lia|]. split; [|left; reflexivity]. intros k [_ K]. destruct (nth_error t k) as [c|] eqn:E; [|apply nth_error_None in E; lia]. exists c. split; [exact E|]. exact (proj1 (Forall_forall _ _) F c (nth_error_In _ _ E)).
Qed.
(** ** HTML *)
Lemma offset_tag k x s : ~ In ">"%char x -> offset (S k) true (x ++ B ">" ++ s) = length x + 1 + offset (S k) false s.
Proof.
  induction x as [|c x IH]; intros N; [reflexivity|]. cbn [offset app]. assert (C : c <> ">"%char) by (intros ->; apply N; left; reflexivity). apply ceq_neq in C. rewrite C.
  assert (E := IH (fun I => N (or_intror I))). destruct (ceq c "<"%char); cbn [offset app length] in *; rewrite E; lia.
Qed.
Lemma offset_spec s v : Shown s v -> forall k, k <= length v -> Offset s k (offset k false s).
Proof.
  induction 1 as [|c s h C1 C2 H IH|s h H IH|x s h N H IH|x N]; intros k K; (destruct k as [|k]; [left; split; [reflexivity|destruct s || idtac; reflexivity]|]).
  - cbn in K; lia.
  - cbn [offset]. apply ceq_neq in C1 as D1. apply ceq_neq in C2 as D2. rewrite D1, D2. cbn [length] in K. specialize (IH k (ltac:(lia))). right. destruct IH as [[-> E]|(a & v & d & b & -> & T & X & Y & L1 & L2)].
    + rewrite E. exists [], [], c, s. repeat split; [constructor|exact C1|exact C2].
    + exists (c :: a), (c :: v), d, b. repeat split; [constructor; assumption|exact X|exact Y|cbn; lia|cbn [length]; lia].
  - cbn [offset]. change (ceq ">"%char "<"%char) with false. change (ceq ">"%char ">"%char) with true. cbv iota. destruct (IH (S k) K) as [[E _]|(a & v & d & b & -> & T & X & Y & L1 & L2)]; [discriminate|]. right.
    exists (">"%char :: a), v, d, b. repeat split; [apply (Te_stray a v T)|exact X|exact Y|exact L1|cbn [length]; lia].
  - change (B "<" ++ x ++ B ">" ++ s) with ("<"%char :: x ++ B ">" ++ s). cbn [offset]. change (ceq "<"%char "<"%char) with true. cbv iota. rewrite offset_tag by exact N. destruct (IH (S k) K) as [[E _]|(a & v & d & b & -> & T & X & Y & L1 & L2)]; [discriminate|]. right.
    exists (B "<" ++ x ++ B ">" ++ a), v, d, b. repeat split; [rewrite <- !app_assoc; reflexivity|apply (Te_tag x a v N T)|exact X|exact Y|exact L1|rewrite !app_length; cbn [length B list_ascii_of_string]; lia].
  - cbn in K. lia.
Qed.
(** ** Buffers *)
Definition room (N : nat) (w : wr) : Prop := w_bad w = false /\ length (w_out w) <= w_cap w /\ N <= w_cap w.
Lemma block_room N extra x w : room N w -> room N (block extra x w) /\ w_out (block extra x w) = w_out w ++ x.
Proof.
  intros (Bd & L & C). unfold block, emit, room. destruct (left_ w <=? length x) eqn:Q; cbn [w_bad w_cap w_out grow]; (split; [|reflexivity]); rewrite Bd; cbn [orb]; rewrite app_length; unfold left_ in Q; [apply Nat.leb_le in Q|apply Nat.leb_gt in Q]; (split; [apply Nat.ltb_ge; lia|split; lia]).
Qed.
Lemma byte_room N c w : room N w -> room N (byte c w) /\ w_out (byte c w) = w_out w ++ [c].
Proof.
  intros (Bd & L & C). unfold byte, emit, room. destruct (left_ w <? 10) eqn:Q; cbn [w_bad w_cap w_out grow]; (split; [|reflexivity]); rewrite Bd; cbn [orb]; rewrite app_length; cbn [length]; unfold left_ in Q; [apply Nat.ltb_lt in Q|apply Nat.ltb_ge in Q]; (split; [apply Nat.ltb_ge; lia|split; lia]).
Qed.
Lemma last_byte_room N c w : room N w -> room N (last_byte c w) /\ w_out (last_byte c w) = w_out w ++ [c].
Proof.
  intros (Bd & L & C). unfold last_byte, emit, room. destruct (left_ w =? 0) eqn:Q; cbn [w_bad w_cap w_out grow]; (split; [|reflexivity]); rewrite Bd; cbn [orb]; rewrite app_length; cbn [length]; unfold left_ in Q; [apply Nat.eqb_eq in Q|apply Nat.eqb_neq in Q]; (split; [apply Nat.ltb_ge; lia|split; lia]).
Qed.
Lemma joined_tag n k N x : ~ In ">"%char x -> forall s w, room N w -> exists w', joined n k true (x ++ s) w = joined n k true s w' /\ room N w' /\ w_out w' = w_out w ++ x.
Proof.
  induction x as [|c x IH]; intros X s w R; [exists w; rewrite app_nil_r; auto|]. assert (C : c <> ">"%char) by (intros ->; apply X; left; reflexivity). apply ceq_neq in C. destruct (byte_room N c w R) as [R1 O1].
  destruct (IH (fun I => X (or_intror I)) s (byte c w) R1) as (w' & E & R2 & O2). exists w'. split; [|split; [exact R2|rewrite O2, O1, <- app_assoc; reflexivity]]. cbn [joined app]. rewrite C. destruct (ceq c "<"%char); exact E.
Qed.
Lemma joined_spec n k s h : Joined n k s h -> forall N w, room N w -> room N (joined n k false s w) /\ w_out (joined n k false s w) = w_out w ++ h.
Proof.
  induction 1 as [k|k c s h Hk Hc H IH|k c s h C1 C2 Hn H IH|k s h H IH|k x s h X H IH|k x X]; intros N w R.
  - cbn. rewrite app_nil_r. auto.
  - cbn [joined]. assert (ceq c "<"%char = false /\ ceq c ">"%char = false) as [-> ->] by (destruct Hc as [-> | ->]; split; reflexivity). rewrite (proj2 (Nat.leb_le _ _) Hk). assert (ceq c SP || ceq c TAB = true) as -> by (rewrite orb_true_iff, !ceq_eq; exact Hc). cbn [andb].
    destruct (block_room N 100 (B "&nbsp;") w R) as [R1 O1]. destruct (IH N _ R1) as [R2 O2]. split; [exact R2|]. rewrite O2, O1, <- app_assoc. reflexivity.
  - cbn [joined]. apply ceq_neq in C1. apply ceq_neq in C2. rewrite C1, C2. assert ((n <=? k) && (ceq c SP || ceq c TAB) = false) as ->.
    { apply bool_false. rewrite andb_true_iff, orb_true_iff, !ceq_eq, Nat.leb_le. exact Hn. }
    destruct (byte_room N c w R) as [R1 O1]. destruct (IH N _ R1) as [R2 O2]. split; [exact R2|]. rewrite O2, O1, <- app_assoc. reflexivity.
  - change (B ">" ++ s) with (">"%char :: s). cbn [joined]. change (ceq ">"%char "<"%char) with false. change (ceq ">"%char ">"%char) with true. cbv iota.
    destruct (byte_room N ">"%char w R) as [R1 O1]. destruct (IH N _ R1) as [R2 O2]. split; [exact R2|]. rewrite O2, O1, <- app_assoc. reflexivity.
  - change (B "<" ++ x ++ B ">" ++ s) with ("<"%char :: x ++ B ">" ++ s). cbn [joined]. change (ceq "<"%char "<"%char) with true. cbv iota. destruct (byte_room N "<"%char w R) as [R1 O1].
    destruct (joined_tag n k N x X (B ">" ++ s) _ R1) as (w2 & E & R2 & O2). rewrite E. change (B ">" ++ s) with (">"%char :: s). cbn [joined]. change (ceq ">"%char "<"%char) with false. change (ceq ">"%char ">"%char) with true. cbv iota.
    destruct (byte_room N ">"%char w2 R2) as [R3 O3]. destruct (IH N _ R3) as [R4 O4]. split; [exact R4|]. rewrite O4, O3, O2, O1, <- !app_assoc. reflexivity.
  - change (B "<" ++ x) with ("<"%char :: x). cbn [joined]. change (ceq "<"%char "<"%char) with true. cbv iota. destruct (byte_room N "<"%char w R) as [R1 O1].
    destruct (joined_tag n k N x X [] _ R1) as (w2 & E & R2 & O2). rewrite app_nil_r in E. rewrite E. cbn [joined]. split; [exact R2|]. rewrite O2, O1, <- app_assoc. reflexivity.
Qed.
Lemma joined_total n s v : Shown s v -> forall k, exists h, Joined n k s h.
Proof.
  induction 1 as [|c s h C1 C2 H IH|s h H IH|x s h N H IH|x N]; intros k.
  - eexists. constructor.
  - destruct (IH (k + 1)) as [h' J]. destruct ((n <=? k) && (ceq c SP || ceq c TAB)) eqn:Q.
    + apply andb_true_iff in Q as [Q1 Q2]. apply Nat.leb_le in Q1. rewrite orb_true_iff, !ceq_eq in Q2. eexists. apply (J_space n k c s h' Q1 Q2 J).
    + exists (c :: h'). apply J_text; [exact C1|exact C2| |exact J]. intros [Q1 Q2]. rewrite (proj2 (Nat.leb_le _ _) Q1) in Q. cbn [andb] in Q. rewrite orb_false_iff, !ceq_neq in Q. tauto.
  - destruct (IH k) as [h' J]. eexists. exact (J_stray n k s h' J).
  - destruct (IH k) as [h' J]. eexists. exact (J_tag n k x s h' N J).
  - eexists. exact (J_open n k x N).
Qed.
Lemma body_total body : exists hb, Body body hb /\ forall N w, room N w -> room N (body_copy body w) /\ w_out (body_copy body w) = w_out w ++ hb.
Proof.
  pose proof (visible_shown body) as V. unfold body_copy. remember (visible false body) as v eqn:Ev. clear Ev. destruct (text_end_total v) as [m Te]. pose proof (words_spec v m Te) as W. destruct (m =? 0) eqn:M.
  - apply Nat.eqb_eq in M as ->. rewrite W. exists body. split; [exists v; split; [exact V|left; split; [apply blank_text, Te|reflexivity]]|]. intros N w R. apply block_room, R.
  - destruct W as (c & E & K). rewrite E. pose proof K as (_ & Lc & _). destruct Te as (Lm & _). destruct (joined_total (offset c false body) body v V 0) as [h J]. exists h. split.
    + exists v. split; [exact V|]. right. exists m, c, (offset c false body). split; [exact K|]. split; [apply (offset_spec body v V); lia|exact J].
    + intros N w R. apply (joined_spec _ _ _ _ J N w R).
Qed.
(** ** Uniqueness *)
Lemma text_end_unique t m m' : text_end t m -> text_end t m' -> m = m'.
Proof.
  assert (H : forall m m', text_end t m -> text_end t m' -> ~ m < m').
  { intros a b (_ & Wa & _) (Lb & _ & Db) L. destruct Db as [Db|Db]; [lia|]. apply Db, Wa. lia. }
  intros A A'. pose proof (H _ _ A A'). pose proof (H _ _ A' A). lia.
Qed.
Lemma kept_unique t m m' c c' : Kept t m c -> Kept t m' c' -> c = c'.
Proof.
  intros K K'. assert (m = m') as <- by (apply (text_end_unique t); [apply K|apply K']). revert c c' K K'.
  assert (H : forall c c', Kept t m c -> Kept t m c' -> ~ c < c').
  { intros a b (_ & _ & _ & _ & Ma) (_ & Lb & Sb & Eb & _) L. destruct Eb as [Eb|Eb]; [lia|]. exact (Ma b (conj L Lb) Sb Eb). }
  intros c c' K K'. pose proof (H _ _ K K'). pose proof (H _ _ K' K). lia.
Qed.
Lemma text_visible a v : Text a v -> forall s, visible false (a ++ s) = v ++ visible false s.
Proof.
  induction 1 as [|c s h N1 N2 H IH|s h H IH|x s h N H IH]; intros r.
  - reflexivity.
  - cbn [visible app]. rewrite (proj2 (ceq_neq c _) N1), (proj2 (ceq_neq c _) N2), IH. reflexivity.
  - exact (IH r).
  - rewrite <- !app_assoc. change (visible false (B "<" ++ x ++ B ">" ++ s ++ r)) with (visible true (x ++ ">"%char :: s ++ r)). rewrite vis_tag by exact N. apply IH.
Qed.
Lemma offset_unique s c n n' : Offset s c n -> Offset s c n' -> n = n'.
Proof.
  intros [[-> ->]|(a & v & d & b & -> & T & X & Y & -> & ->)]; intros [[C ->]|(a' & v' & d' & b' & E & T' & X' & Y' & L & ->)]; [reflexivity|lia|lia|]. f_equal.
  assert (H : forall a v d b a' v' d' b', Text a v -> Text a' v' -> d <> "<"%char -> d <> ">"%char -> length v = length v' -> a ++ [d] ++ b = a' ++ [d'] ++ b' -> ~ length a < length a').
  { clear. intros a v d b a' v' d' b' T T' X Y L E Q. rewrite !app_assoc in E. destruct (app_split (a') ([d'] ++ b') (a ++ [d]) b) as (e & -> & _); [rewrite <- app_assoc; symmetry; rewrite <- app_assoc in E; rewrite E; rewrite <- app_assoc; reflexivity|rewrite app_length; cbn; lia|].
    pose proof (text_visible _ _ T' []) as V. rewrite !app_nil_r in V. rewrite <- app_assoc in V. rewrite (text_visible _ _ T) in V. cbn [app visible] in V. rewrite (proj2 (ceq_neq d _) X), (proj2 (ceq_neq d _) Y) in V. apply (f_equal (@length ascii)) in V. rewrite app_length in V. cbn [length visible app] in V. rewrite ?app_nil_r in V. lia. }
  pose proof (H _ _ _ _ _ _ _ _ T T' X Y (ltac:(lia)) E). pose proof (H _ _ _ _ _ _ _ _ T' T X' Y' (ltac:(lia)) (eq_sym E)). lia.
Qed.
Lemma joined_unique n k s h h' : Joined n k s h -> Joined n k s h' -> h = h'.
Proof.
  intros J J'. assert (R : room 0 (start 1)) by (repeat split; cbn; lia). destruct (joined_spec _ _ _ _ J 0 (start 1) R) as [_ O]. destruct (joined_spec _ _ _ _ J' 0 (start 1) R) as [_ O']. rewrite O in O'. exact O'.
Qed.
Lemma shown_unique s v v' : Shown s v -> Shown s v' -> v = v'.
Proof. intros H H'. rewrite <- (shown_visible _ _ H). apply shown_visible, H'. Qed.
Lemma body_unique body h h' : Body body h -> Body body h' -> h = h'.
Proof.
  intros (v & V & D) (v' & V' & D'). pose proof (shown_unique _ _ _ V V') as <-. clear V V'.
  assert (X : forall m c, Forall white v -> Kept v m c -> False).
  { intros m c F (Te & L & _). apply blank_text in F. pose proof (text_end_unique _ _ _ F Te). lia. }
  destruct D as [[F ->]|(m & c & n & K & O & J)]; destruct D' as [[F' ->]|(m' & c' & n' & K' & O' & J')]; [reflexivity|destruct (X _ _ F K')|destruct (X _ _ F' K)|].
  pose proof (kept_unique _ _ _ _ _ K K') as <-. pose proof (offset_unique _ _ _ _ O O') as <-. exact (joined_unique _ _ _ _ _ J J').
Qed.
Lemma body_spec body hb : Body body hb -> forall N w, room N w -> room N (body_copy body w) /\ w_out (body_copy body w) = w_out w ++ hb.
Proof. intros H. destruct (body_total body) as (h & H' & S). rewrite (body_unique _ _ _ H H'). exact S. Qed.
(** ** Documents *)
Lemma level_some d s : heading_at d s -> level_of s = Some d.
Proof.
  intros (I & r & ->). unfold level_of. cbn [B list_ascii_of_string app at_ nth]. change (ceq "<"%char "<"%char && ceq "h"%char "h"%char) with true. cbn [andb].
  cbn in I. destruct I as [<-|[<-|[<-|[<-|[<-|[<-|[]]]]]]]; reflexivity.
Qed.
Lemma level_none s : (forall d, ~ heading_at d s) -> level_of s = None.
Proof.
  intros N. unfold level_of. destruct (ceq (at_ s 0) "<"%char && ceq (at_ s 1) "h"%char && between 49 54 (at_ s 2)) eqn:E; [|reflexivity]. exfalso. rewrite !andb_true_iff, !ceq_eq in E. destruct E as [[E0 E1] E2].
  assert (H : forall c, implb (between 49 54 c) (existsb (fun d => ceq c d) (B "123456")) = true) by (apply byte_forall; vm_compute; reflexivity).
  specialize (H (at_ s 2)). rewrite E2 in H. cbn [implb] in H. apply existsb_exists in H as (d & I & Ed). apply ceq_eq in Ed. apply (N d). split; [exact I|].
  destruct s as [|a [|b [|c r]]]; unfold at_ in *; cbn [nth] in *; try discriminate. subst. exists r. reflexivity.
Qed.
Lemma close_unbordered d : In d (B "123456") -> unbordered (close d) = true.
Proof. cbn [In B list_ascii_of_string]. intros [<-|[<-|[<-|[<-|[<-|[<-|[]]]]]]]; vm_compute; reflexivity. Qed.
Lemma widont_spec s h : Widont s h -> forall N fuel w, length s < fuel -> room N w -> room N (widont fuel s w) /\ w_out (widont fuel s w) = w_out w ++ h.
Proof.
  induction 1 as [|c s h Hn H IH|d s Hd Hn|d a s Hd Ha Hs|d a body s hb h Hd Ha Hb Bd H IH]; intros N fuel w L R; (destruct fuel as [|fuel]; [lia|]).
  - cbn. rewrite app_nil_r. auto.
  - cbn [widont]. rewrite (level_none _ Hn). destruct (last_byte_room N c w R) as [R1 O1]. destruct (IH N fuel _ (ltac:(cbn in L; lia)) R1) as [R2 O2]. split; [exact R2|]. rewrite O2, O1, <- app_assoc. reflexivity.
  - assert (Q : exists c r, s = c :: r) by (destruct Hd as (_ & r & ->); do 2 eexists; reflexivity). destruct Q as (c & r & Q). rewrite Q. cbn [widont]. rewrite <- Q. rewrite (level_some d s Hd), (strchr_absent _ _ Hn). apply block_room, R.
  - remember (a ++ B ">" ++ s) as t eqn:Et. assert (Q : exists c r, t = c :: r) by (rewrite Et; destruct a; do 2 eexists; reflexivity). destruct Q as (c & r & Q). rewrite Q. cbn [widont]. rewrite <- Q. rewrite (level_some d t Hd). assert (Ec : strchr ">"%char t = Some (length a)) by (rewrite Et; exact (strchr_at ">"%char a s Ha)). rewrite Ec.
    assert (E1 : firstn (length a + 1) t = a ++ B ">") by (rewrite Et, app_assoc; apply firstn_exact; rewrite app_length; reflexivity). assert (E2 : skipn (length a + 1) t = s) by (rewrite Et, app_assoc; apply skipn_exact; rewrite app_length; reflexivity). rewrite E1, E2.
    change (B "</h" ++ [d] ++ B ">") with (close d). rewrite (strstr_absent (close d) s) by (try discriminate; exact Hs). destruct (block_room N 100 (a ++ B ">") w R) as [R1 O1]. destruct (block_room N 1 s _ R1) as [R2 O2]. split; [exact R2|]. etransitivity; [exact O2|]. rewrite O1, Et, <- !app_assoc. reflexivity.
  - remember (a ++ B ">" ++ body ++ close d ++ s) as t eqn:Et. assert (Q : exists c r, t = c :: r) by (rewrite Et; destruct a; do 2 eexists; reflexivity). destruct Q as (c & r & Q). rewrite Q. cbn [widont]. rewrite <- Q. rewrite (level_some d t Hd). assert (Ec : strchr ">"%char t = Some (length a)) by (rewrite Et; exact (strchr_at ">"%char a (body ++ close d ++ s) Ha)). rewrite Ec.
    assert (E1 : firstn (length a + 1) t = a ++ B ">") by (rewrite Et, app_assoc; apply firstn_exact; rewrite app_length; reflexivity). assert (E2 : skipn (length a + 1) t = body ++ close d ++ s) by (rewrite Et, app_assoc; apply skipn_exact; rewrite app_length; reflexivity). rewrite E1, E2.
    change (B "</h" ++ [d] ++ B ">") with (close d). rewrite strstr_unbordered by (try discriminate; try exact Hb; apply close_unbordered, Hd). rewrite firstn_exact by reflexivity.
    assert (E3 : skipn (length body + length (close d)) (body ++ close d ++ s) = s) by (rewrite app_assoc; apply skipn_exact; rewrite app_length; reflexivity). rewrite E3.
    destruct (block_room N 100 (a ++ B ">") w R) as [R1 O1]. destruct (body_spec body hb Bd N _ R1) as [R2 O2]. destruct (block_room N 1 (close d) _ R2) as [R3 O3].
    assert (Ls : length s < fuel) by (rewrite Et, !app_length in L; cbn [length B list_ascii_of_string] in L; lia).
    destruct (IH N fuel _ Ls R3) as [R4 O4]. split; [exact R4|]. etransitivity; [exact O4|]. rewrite O3, O2, O1, <- !app_assoc. reflexivity.
Qed.
Lemma heading_dec s : (exists d, heading_at d s) \/ forall d, ~ heading_at d s.
Proof.
  destruct (level_of s) as [d|] eqn:E; [left|right; intros d H; rewrite (level_some d s H) in E; discriminate].
  destruct (level_of s) as [d'|] eqn:E2; [|discriminate]. unfold level_of in E2. destruct (ceq (at_ s 0) "<"%char && ceq (at_ s 1) "h"%char && between 49 54 (at_ s 2)) eqn:Q; [|discriminate].
  rewrite !andb_true_iff, !ceq_eq in Q. destruct Q as [[E0 E1] Q].
  assert (H : forall c, implb (between 49 54 c) (existsb (fun d => ceq c d) (B "123456")) = true) by (apply byte_forall; vm_compute; reflexivity).
  specialize (H (at_ s 2)). rewrite Q in H. cbn [implb] in H. apply existsb_exists in H as (x & I & Ed). apply ceq_eq in Ed. exists x. split; [exact I|].
  destruct s as [|a [|b [|c r]]]; unfold at_ in *; cbn [nth] in *; try discriminate. subst. exists r. reflexivity.
Qed.
Lemma widont_total s : exists h, Widont s h.
Proof.
  assert (H : forall n s, length s < n -> exists h, Widont s h).
  { induction n as [|n IH]; intros t L; [lia|]. destruct (heading_dec t) as [[d Hd]|Hn].
    - destruct (strchr_cut ">"%char t) as [N|(a & r & -> & N)]; [exists t; exact (W_open d t Hd N)|]. destruct (strstr_cut (close d) r) as [Nc|(body & s' & -> & Nb)]; [discriminate|apply close_unbordered, Hd|eexists; exact (W_unclosed d a r Hd N Nc)|].
      destruct (body_total body) as (hb & Bd & _). destruct (IH s') as [h H]; [rewrite app_length in L; cbn [length] in L; rewrite !app_length in L; lia|]. eexists. exact (W_heading d a body s' hb h Hd N Nb Bd H).
    - destruct t as [|c t]; [exists []; constructor|]. destruct (IH t) as [h H]; [cbn in L; lia|]. exists (c :: h). constructor; assumption. }
  exact (H (S (length s)) s (Nat.lt_succ_diag_r _)).
Qed.
Lemma widont_run html h : Widont html h -> exists w, widont (S (length html)) html (start (length html * 2 + 1)) = w /\ room (length html * 2 + 1) w /\ w_out w = h.
Proof. intros H. eexists. split; [reflexivity|]. apply (widont_spec _ _ H (length html * 2 + 1)); [lia|]. repeat split; cbn; lia. Qed.
Lemma widont_out html h : Widont html h -> apply_widont html = Out h \/ apply_widont html = Bad.
Proof. intros H. destruct (widont_run _ _ H) as (w & E & _ & O). unfold apply_widont. rewrite E. unfold finish. destruct (_ || _); [right|left]; congruence. Qed.
Lemma widont_safe html h : Widont html h -> length h <= 2 * length html -> apply_widont html = Out h.
Proof.
  intros H L. destruct (widont_run _ _ H) as (w & E & (Bd & _ & C) & O). unfold apply_widont. rewrite E. unfold finish. rewrite Bd. cbn [orb]. rewrite (proj2 (Nat.leb_gt (w_cap w) (length (w_out w)))); [rewrite O; reflexivity|]. rewrite O. lia.
Qed.
(** ** Headings without tags *)
Lemma shown_plain s : ~ In "<"%char s -> ~ In ">"%char s -> Shown s s.
Proof. induction s as [|c s IH]; intros N1 N2; [constructor|]. apply Sh_text; [intros ->; apply N1; left; reflexivity|intros ->; apply N2; left; reflexivity|]. apply IH; intros I; [apply N1|apply N2]; right; exact I. Qed.
Lemma text_plain s : ~ In "<"%char s -> ~ In ">"%char s -> Text s s.
Proof. induction s as [|c s IH]; intros N1 N2; [constructor|]. apply Te_text; [intros ->; apply N1; left; reflexivity|intros ->; apply N2; left; reflexivity|]. apply IH; intros I; [apply N1|apply N2]; right; exact I. Qed.
Lemma offset_plain s c : ~ In "<"%char s -> ~ In ">"%char s -> c <= length s -> Offset s c c.
Proof.
  intros N1 N2 L. destruct c as [|c]; [left; auto|]. right. destruct (nth_error s c) as [d|] eqn:E; [|apply nth_error_None in E; lia]. apply nth_error_split in E as (a & b & -> & <-). exists a, a, d, b.
  assert (M1 : ~ In "<"%char a /\ d <> "<"%char) by (split; [intros I; apply N1, in_or_app; left; exact I|intros ->; apply N1, in_or_app; right; left; reflexivity]).
  assert (M2 : ~ In ">"%char a /\ d <> ">"%char) by (split; [intros I; apply N2, in_or_app; left; exact I|intros ->; apply N2, in_or_app; right; left; reflexivity]).
  repeat split; [apply text_plain; tauto|tauto|tauto|lia|lia].
Qed.
Lemma joined_after n s : ~ In "<"%char s -> ~ In ">"%char s -> forall k, n <= k -> Joined n k s (unbroken s).
Proof.
  induction s as [|c s IH]; intros N1 N2 k L; [constructor|]. assert (I : Joined n (k + 1) s (unbroken s)) by (apply IH; [intros I; apply N1; right; exact I|intros I; apply N2; right; exact I|lia]).
  unfold unbroken. cbn [flat_map]. fold (unbroken s). destruct (ascii_dec c SP) as [->|D1]; [apply J_space; auto|]. destruct (ascii_dec c TAB) as [->|D2]; [apply J_space; auto|]. cbn [app]. apply J_text; [intros ->; apply N1; left; reflexivity|intros ->; apply N2; left; reflexivity|intros [_ [X|X]]; contradiction|exact I].
Qed.
Lemma joined_plain p x : ~ In "<"%char (p ++ x) -> ~ In ">"%char (p ++ x) -> forall k, Joined (k + length p) k (p ++ x) (p ++ unbroken x).
Proof.
  induction p as [|c p IH]; intros N1 N2 k; cbn [app].
  - apply joined_after; [exact N1|exact N2|cbn; lia].
  - apply J_text; [intros ->; apply N1; left; reflexivity|intros ->; apply N2; left; reflexivity|intros [X _]; cbn [length] in X; lia|]. replace (k + length (c :: p)) with (k + 1 + length p) by (cbn [length]; lia). apply IH; intros I; [apply N1|apply N2]; right; exact I.
Qed.
Lemma kept_total t : ~ Forall white t -> exists m c, Kept t m c.
Proof.
  intros N. destruct (text_end_total t) as [m Te]. pose proof (words_spec t m Te) as W. destruct (m =? 0) eqn:M; [apply Nat.eqb_eq in M as ->; destruct N; apply blank_text, Te|]. destruct W as (c & _ & K). eauto.
Qed.
Lemma plain_body body : ~ In "<"%char body -> ~ In ">"%char body -> ~ Forall white body -> exists p x m, body = p ++ x /\ text_end body m /\ (p = [] \/ 10 < m - length p) /\ Body body (p ++ unbroken x).
Proof.
  intros N1 N2 F. destruct (kept_total body F) as (m & c & K). pose proof K as (Te & L & _ & E & _). pose proof Te as (Lm & _). exists (firstn c body), (skipn c body), m.
  assert (Q : body = firstn c body ++ skipn c body) by (symmetry; apply firstn_skipn). assert (Lc : length (firstn c body) = c) by (apply firstn_length_le; lia).
  split; [exact Q|]. split; [exact Te|]. split; [destruct E as [->|[E _]]; [left; reflexivity|right; lia]|]. exists body. split; [apply shown_plain; assumption|]. right. exists m, c, c. split; [exact K|]. split; [apply offset_plain; [assumption|assumption|lia]|].
  rewrite <- Lc at 1. pose proof (joined_plain (firstn c body) (skipn c body)) as J. rewrite <- Q in J. exact (J N1 N2 0).
Qed.
Lemma plain_close d body : ~ In "<"%char body -> ~ has (close d) body.
Proof. intros N (a & b & ->). apply N. apply in_or_app. right. left. reflexivity. Qed.
Lemma widont_none html : no_heading html -> Widont html html.
Proof.
  induction html as [|c s IH]; intros N; [constructor|]. apply W_byte; [intros d; exact (N [] (c :: s) d eq_refl)|]. apply IH. intros a b d ->. exact (N (c :: a) b d eq_refl).
Qed.
Lemma widont_unique html h h' : Widont html h -> Widont html h' -> h = h'.
Proof. intros H H'. destruct (widont_run _ _ H) as (w & E & _ & <-). destruct (widont_run _ _ H') as (w' & E' & _ & <-). congruence. Qed.
