(** Proofs about M_Reader. *)
From Verif Require Import Base BaseL M_Reader S_Reader.

(** ** The buffer *)
(** Enough room for what is left. *)
Definition room (n : nat) (w : wr) : Prop :=
  w_rem w + length (w_out w) = w_cap w /\ w_oob w = false /\ 3 * n + 2 <= 2 * w_rem w.
Lemma emit_room s n k w : room n w -> length s <= w_rem w -> 3 * k + 2 <= 2 * (w_rem w - length s) ->
  room k (emit s w) /\ w_out (emit s w) = w_out w ++ s.
Proof.
  intros (E & O & R) L K. unfold emit, w_store, w_set_rem, room. cbn. rewrite app_length, O.
  split; [|reflexivity]. split; [lia|]. split; [|lia].
  destruct s; [reflexivity|]. cbn [orb]. apply Nat.ltb_ge. lia.
Qed.
Lemma make_room_room n w : room n w ->
  room n (make_room w) /\ w_out (make_room w) = w_out w /\ 10 <= w_rem (make_room w).
Proof.
  intros (E & O & R). unfold make_room. destruct (Nat.ltb_spec (w_rem w) 10) as [L|L].
  - unfold grow, room. cbn. repeat split; try lia; assumption.
  - unfold room. auto.
Qed.
Lemma emit1 c n w : room (S n) w -> room n (emit [c] (make_room w)) /\ w_out (emit [c] (make_room w)) = w_out w ++ [c].
Proof.
  intro H. destruct (make_room_room _ _ H) as (R & O & L). rewrite <- O.
  apply (emit_room [c] (S n)); [assumption|cbn; lia|]. destruct R as (_ & _ & R). cbn [length]. lia.
Qed.
Lemma emit2 c d n w : room (S (S n)) w -> room n (emit [c; d] (make_room w)) /\ w_out (emit [c; d] (make_room w)) = w_out w ++ [c; d].
Proof.
  intro H. destruct (make_room_room _ _ H) as (R & O & L). rewrite <- O.
  apply (emit_room [c; d] (S (S n))); [assumption|cbn; lia|]. destruct R as (_ & _ & R). cbn [length]. lia.
Qed.
Lemma emit_mark a b x n w : length a = 3 -> length b = 3 -> room (length x + 4 + n) w ->
  let w2 := emit b (emit x (emit a w)) in room n w2 /\ w_out w2 = w_out w ++ a ++ x ++ b.
Proof.
  intros La Lb H. pose proof H as (_ & _ & R).
  destruct (emit_room a _ (length x + n + 2) w H) as [H1 O1]; try lia.
  assert (R1 : w_rem (emit a w) = w_rem w - 3) by (unfold emit; cbn; lia).
  assert (R2 : w_rem (emit x (emit a w)) = w_rem w - 3 - length x) by (unfold emit at 1; cbn -[emit]; lia).
  destruct (emit_room x _ (2 + n) _ H1) as [H2 O2]; try lia.
  destruct (emit_room b _ n _ H2) as [H3 O3]; try lia.
  split; [assumption|]. rewrite O3, O2, O1, <- !app_assoc. reflexivity.
Qed.

(** ** Marks *)
Lemma shortest_first d x s : shortest d x -> strstr [d; d] (x ++ [d; d] ++ s) = Some (length x).
Proof.
  intro H. apply strstr_first. intros a b E. destruct (Nat.le_gt_cases (length x) (length a)) as [L|L]; [assumption|].
  exfalso. apply (f_equal (firstn (S (length x)))) in E.
  assert (J : firstn (S (length x)) (x ++ [d; d] ++ s) = x ++ [d]).
  { rewrite firstn_app, firstn_all2 by lia. replace (S (length x) - length x) with 1 by lia. reflexivity. }
  assert (K : firstn (S (length x)) (a ++ [d; d] ++ b) = a ++ [d; d] ++ firstn (length x - S (length a)) b).
  { rewrite firstn_app, firstn_all2 by lia. f_equal.
    replace (S (length x) - length a) with (S (S (length x - S (length a)))) by lia. reflexivity. }
  rewrite J in E.
  rewrite K in E. exact (H _ _ E).
Qed.
Lemma first_shortest d s n : strstr [d; d] s = Some n ->
  exists x r, s = x ++ [d; d] ++ r /\ length x = n /\ shortest d x.
Proof.
  intro E. apply strstr_some in E as (x & r & -> & L & F). exists x, r. split; [reflexivity|]. split; [assumption|].
  intros a b G. assert (Q : x ++ [d; d] ++ r = a ++ [d; d] ++ (b ++ d :: r)).
  { change ([d; d] ++ r) with ([d] ++ d :: r). rewrite app_assoc, G, <- !app_assoc. reflexivity. }
  apply F in Q. apply (f_equal (@length _)) in G. rewrite !app_length in G. cbn in G. lia.
Qed.

(** ** Backticks *)
Definition code_of (st : rs) : code_state := In_code (r_block st) (r_inline st).
Definition coded (st : rs) : bool := r_block st || r_inline st.
Lemma coded_in st : coded st = true <-> in_code (code_of st).
Proof. unfold coded, in_code, code_of. cbn. apply Bool.orb_true_iff. Qed.
Lemma coded_out st : coded st = false <-> ~ in_code (code_of st).
Proof. rewrite <- coded_in. destruct (coded st); split; congruence. Qed.
Lemma track_other c n st : c <> tick -> track c n st = Rs (r_block st) (r_inline st) 0.
Proof. intro H. unfold track. apply ceq_neq in H. unfold tick in H. now rewrite H. Qed.

(** A run of backticks when [k] (0, 1 or 2) have been counted. *)
Fixpoint ticks_from (n : nat) (st : rs) : rs :=
  match n with
  | 0 => st
  | S n => ticks_from n (track tick (match n with 0 => NUL | _ => tick end) st)
  end.
Lemma track_tick_next a st : a <> tick -> track tick a st = track tick NUL st.
Proof.
  intro H. apply ceq_neq in H. unfold track. rewrite ceq_refl. unfold tick in *. rewrite H.
  change (ceq NUL "`") with false. reflexivity.
Qed.
Lemma div3 n : (n + 3) / 3 = S (n / 3) /\ (n + 3) mod 3 = n mod 3.
Proof.
  split; [rewrite <- (Nat.mul_1_l 3) at 1; rewrite Nat.div_add by lia; lia|].
  rewrite <- (Nat.mul_1_l 3) at 1. now rewrite Nat.mod_add by lia.
Qed.
Lemma three_ticks n st : r_count st = 0 -> 0 < n ->
  ticks_from (3 + n) st = ticks_from n (Rs (negb (r_block st)) (r_inline st) 0).
Proof.
  intros H Hn. destruct st as [b i k]. cbn in H. subst k. destruct n; [lia|].
  destruct b; reflexivity.
Qed.
Lemma run_ticks : forall n st, 0 < n -> r_count st = 0 -> code_of (ticks_from n st) = after_ticks n (code_of st).
Proof.
  induction n as [n IH] using lt_wf_ind. intros st Hn Hc.
  destruct (Nat.le_gt_cases n 3) as [L|L].
  - destruct st as [b i k]. cbn in Hc. subst k.
    assert (C : n = 1 \/ n = 2 \/ n = 3) by lia. destruct C as [->|[->| ->]]; destruct b, i; reflexivity.
  - replace n with (3 + (n - 3)) by lia. rewrite three_ticks by (assumption || lia).
    rewrite IH by (lia || reflexivity). unfold after_ticks, code_of. cbn [block inline r_block r_inline].
    rewrite (Nat.add_comm 3). destruct (div3 (n - 3)) as [-> ->]. rewrite Nat.odd_succ.
    rewrite <- Nat.negb_odd. set (q := Nat.odd ((n - 3) / 3)).
    destruct (r_block st), q; reflexivity.
Qed.

(** ** The loop *)
Definition plainly (s : str) : Prop := forall r, s <> tick :: r.
Lemma loop_ticks : forall n fuel st s w, 0 < n -> plainly s -> room (n + length s) w ->
  exists w', room (length s) w' /\ w_out w' = w_out w ++ repeat tick n /\
    reader_loop (n + fuel) st (repeat tick n ++ s) w = reader_loop fuel (ticks_from n st) s w'.
Proof.
  induction n as [|n IH]; intros fuel st s w Hn Hs R; [lia|].
  cbn [repeat app Nat.add reader_loop]. cbv zeta.
  set (nx := at_ (repeat tick n ++ s) 0).
  assert (En : track tick nx st = track tick (match n with 0 => NUL | _ => tick end) st).
  { destruct n as [|n]; [|reflexivity]. destruct s as [|c s']; [reflexivity|].
    apply track_tick_next. unfold nx. cbn. intros ->. now apply (Hs s'). }
  rewrite En. set (st' := track tick _ st).
  assert (B : (if (r_block st' || r_inline st')%bool
               then reader_loop (n + fuel) st' (repeat tick n ++ s) (emit [tick] (make_room w))
               else if (ceq tick "=" && ceq nx "=")%bool
                    then let (s2, w2) := wrap_mark "=" "=" (skipn 1 (repeat tick n ++ s)) w in reader_loop (n + fuel) st' s2 w2
                    else if (ceq tick "~" && ceq nx "~")%bool
                         then let (s2, w2) := wrap_mark "~" "-" (skipn 1 (repeat tick n ++ s)) w in reader_loop (n + fuel) st' s2 w2
                         else reader_loop (n + fuel) st' (repeat tick n ++ s) (emit [tick] (make_room w)))
              = reader_loop (n + fuel) st' (repeat tick n ++ s) (emit [tick] (make_room w))).
  { destruct (r_block st' || r_inline st')%bool; reflexivity. }
  rewrite B. destruct (emit1 tick _ _ R) as [R1 O1].
  destruct n as [|n].
  - exists (emit [tick] (make_room w)). split; [exact R1|]. split; [exact O1|reflexivity].
  - destruct (IH fuel st' s _ ltac:(lia) Hs R1) as (w' & R' & O' & E'). exists w'. split; [assumption|].
    split; [rewrite O', O1, <- app_assoc; reflexivity|exact E'].
Qed.
Lemma loop_step_plain fuel st c s w : c <> tick ->
  reader_loop (S fuel) st (c :: s) w =
  let st' := Rs (r_block st) (r_inline st) 0 in
  if coded st then reader_loop fuel st' s (emit [c] (make_room w))
  else if (ceq c "=" && ceq (at_ s 0) "=")%bool
       then let (s2, w2) := wrap_mark "=" "=" (skipn 1 s) w in reader_loop fuel st' s2 w2
       else if (ceq c "~" && ceq (at_ s 0) "~")%bool
            then let (s2, w2) := wrap_mark "~" "-" (skipn 1 s) w in reader_loop fuel st' s2 w2
            else reader_loop fuel st' s (emit [c] (make_room w)).
Proof. intro H. cbn [reader_loop]. rewrite (track_other _ _ _ H). reflexivity. Qed.

Definition ends (o : str) (w : wr) (x : option wr) : Prop :=
  exists w', x = Some w' /\ w_out w' = w_out w ++ o /\ w_oob w' = false.

Lemma mark_taken d o x s w fuel st : (d = "=" /\ o = "=" \/ d = "~" /\ o = "-")%char -> coded st = false ->
  shortest d x -> room (4 + length x + length s) w ->
  exists w2, room (length s) w2 /\ w_out w2 = w_out w ++ ["{"%char; o; o] ++ x ++ [o; o; "}"%char] /\
    reader_loop (S fuel) st ([d; d] ++ x ++ [d; d] ++ s) w = reader_loop fuel (Rs (r_block st) (r_inline st) 0) s w2.
Proof.
  intros D C H R. replace (4 + length x + length s) with (length x + 4 + length s) in R by lia.
  destruct (emit_mark ["{"%char; o; o] [o; o; "}"%char] x (length s) w eq_refl eq_refl R) as [R2 O2].
  eexists. split; [exact R2|]. split; [exact O2|].
  assert (W : wrap_mark d o (x ++ [d; d] ++ s) w = (s, emit [o; o; "}"%char] (emit x (emit ["{"%char; o; o] w)))).
  { unfold wrap_mark. rewrite (shortest_first d x s H). destruct R as (_ & _ & R).
    destruct (Nat.leb_spec (w_rem w) (2 + length x + 2)) as [L|L]; [lia|].
    rewrite firstn_app, firstn_all, Nat.sub_diag, firstn_O, app_nil_r.
    rewrite skipn_app, skipn_all2 by lia. replace (length x + 2 - length x) with 2 by lia. reflexivity. }
  change ([d; d] ++ x ++ [d; d] ++ s) with (d :: d :: x ++ [d; d] ++ s).
  rewrite loop_step_plain by (destruct D as [[-> _]|[-> _]]; discriminate). cbv zeta. rewrite C.
  destruct D as [[-> ->]|[-> ->]]; cbn [at_ nth ceq skipn andb]; 
    [change (ceq "=" "=" && ceq (at_ ("="%char :: x ++ ["="; "="]%char ++ s) 0) "=")%bool with true
    |change (ceq "~" "=" && ceq (at_ ("~"%char :: x ++ ["~"; "~"]%char ++ s) 0) "=")%bool with false;
     change (ceq "~" "~" && ceq (at_ ("~"%char :: x ++ ["~"; "~"]%char ++ s) 0) "~")%bool with true];
    cbv iota; cbn [skipn]; rewrite W; reflexivity.
Qed.

Lemma mark_open d o s w fuel st : (d = "=" /\ o = "=" \/ d = "~" /\ o = "-")%char -> coded st = false ->
  (forall a b, s <> a ++ [d; d] ++ b) -> room (2 + length s) w ->
  exists w2, room (length s) w2 /\ w_out w2 = w_out w ++ [d; d] /\
    reader_loop (S fuel) st ([d; d] ++ s) w = reader_loop fuel (Rs (r_block st) (r_inline st) 0) s w2.
Proof.
  intros D C H R. destruct (emit2 d d _ _ R) as [R2 O2].
  eexists. split; [exact R2|]. split; [exact O2|].
  assert (W : wrap_mark d o s w = (s, emit [d; d] (make_room w))).
  { unfold wrap_mark. destruct (strstr [d; d] s) as [n|] eqn:E; [|reflexivity].
    apply strstr_some in E as (a & b & E & _). elim (H _ _ E). }
  change ([d; d] ++ s) with (d :: d :: s).
  rewrite loop_step_plain by (destruct D as [[-> _]|[-> _]]; discriminate). cbv zeta. rewrite C.
  destruct D as [[-> ->]|[-> ->]];
    [change (ceq "=" "=" && ceq (at_ ("="%char :: s) 0) "=")%bool with true
    |change (ceq "~" "=" && ceq (at_ ("~"%char :: s) 0) "=")%bool with false;
     change (ceq "~" "~" && ceq (at_ ("~"%char :: s) 0) "~")%bool with true];
    cbv iota; cbn [skipn]; rewrite W; reflexivity.
Qed.
Lemma not_doubled c s : (forall d l r s', mark d l r -> c :: s <> [d; d] ++ s') ->
  (ceq c "=" && ceq (at_ s 0) "=")%bool = false /\ (ceq c "~" && ceq (at_ s 0) "~")%bool = false.
Proof.
  intro H. split; apply Bool.not_true_is_false; rewrite Bool.andb_true_iff, !ceq_eq; intros [-> E];
    (destruct s as [|d s]; [discriminate|]); cbn in E; subst d.
  - exact (H _ _ _ s m_high eq_refl).
  - exact (H _ _ _ s m_strike eq_refl).
Qed.
Lemma mark_bytes d l r : mark d l r -> exists o, (d = "=" /\ o = "=" \/ d = "~" /\ o = "-")%char /\
  l = ["{"%char; o; o] /\ r = [o; o; "}"%char].
Proof. intros []; [exists "="%char|exists "-"%char]; auto. Qed.

Lemma loop_rewrites cs s o : rewrites cs s o -> forall fuel st w, length s < fuel -> code_of st = cs ->
  (r_count st = 0 \/ plainly s) -> room (length s) w -> ends o w (reader_loop fuel st s w).
Proof.
  induction 1 as [cs|cs n s o Hn Hs HR IH|cs c s o Hc Ht HR IH|cs d l r x s o Hc Hm Hx HR IH|cs d l r s o Hc Hm Hx HR IH|cs c s o Hc Ht Hd HR IH];
    intros fuel st w F Cs Fr R; (destruct fuel as [|fuel]; [lia|]).
  - exists (w_term w). split; [reflexivity|]. split; [now rewrite app_nil_r|].
    destruct R as (E & O & R). unfold w_term. cbn. rewrite O. cbn [orb]. apply Nat.leb_gt. lia.
  - rewrite app_length, repeat_length in F, R.
    destruct (loop_ticks n (S fuel - n) st s w Hn Hs R) as (w' & R' & O' & E').
    replace (n + (S fuel - n)) with (S fuel) in E' by lia. unfold ends. rewrite E'.
    assert (C0 : r_count st = 0).
    { destruct Fr as [Fr|Fr]; [assumption|]. destruct n; [lia|]. elim (Fr (repeat tick n ++ s)). reflexivity. }
    destruct (IH (S fuel - n) (ticks_from n st) w') as (w2 & E2 & O2 & B2); try lia; auto.
    { rewrite run_ticks by (assumption || lia). now rewrite Cs. }
    exists w2. split; [assumption|]. split; [|assumption]. rewrite O2, O', <- app_assoc. reflexivity.
  - subst cs. apply coded_in in Hc. unfold ends. rewrite loop_step_plain by assumption. cbv zeta. rewrite Hc.
    destruct (emit1 c _ _ R) as [R1 O1]. cbn in F.
    destruct (IH fuel (Rs (r_block st) (r_inline st) 0) (emit [c] (make_room w))) as (w2 & E2 & O2 & B2); try lia; auto.
    exists w2. split; [assumption|]. split; [|assumption]. rewrite O2, O1, <- app_assoc. reflexivity.
  - subst cs. apply coded_out in Hc. destruct (mark_bytes _ _ _ Hm) as (b & D & -> & ->).
    assert (Len : length ([d; d] ++ x ++ [d; d] ++ s) = 4 + length x + length s) by (rewrite !app_length; cbn; lia).
    rewrite Len in F, R.
    destruct (mark_taken d b x s w fuel st D Hc Hx R) as (w1 & R1 & O1 & E1). unfold ends. rewrite E1.
    destruct (IH fuel (Rs (r_block st) (r_inline st) 0) w1) as (w2 & E2 & O2 & B2); try lia; auto.
    exists w2. split; [assumption|]. split; [|assumption]. rewrite O2, O1, <- !app_assoc. reflexivity.
  - subst cs. apply coded_out in Hc. destruct (mark_bytes _ _ _ Hm) as (b & D & -> & ->). cbn in F.
    destruct (mark_open d b s w fuel st D Hc Hx R) as (w1 & R1 & O1 & E1). unfold ends. rewrite E1.
    destruct (IH fuel (Rs (r_block st) (r_inline st) 0) w1) as (w2 & E2 & O2 & B2); try lia; auto.
    exists w2. split; [assumption|]. split; [|assumption]. rewrite O2, O1, <- !app_assoc. reflexivity.
  - subst cs. apply coded_out in Hc. unfold ends. rewrite loop_step_plain by assumption. cbv zeta. rewrite Hc.
    destruct (not_doubled _ _ Hd) as [-> ->].
    destruct (emit1 c _ _ R) as [R1 O1]. cbn in F.
    destruct (IH fuel (Rs (r_block st) (r_inline st) 0) (emit [c] (make_room w))) as (w2 & E2 & O2 & B2); try lia; auto.
    exists w2. split; [assumption|]. split; [|assumption]. rewrite O2, O1, <- app_assoc. reflexivity.
Qed.

(** ** There is a reading *)
Lemma split_ticks : forall s, exists n r, s = repeat tick n ++ r /\ plainly r.
Proof.
  induction s as [|c s (n & r & -> & P)]; [exists 0, []; split; [reflexivity|discriminate]|].
  destruct (ascii_dec c tick) as [->|N]; [exists (S n), r; auto|].
  exists 0, (c :: repeat tick n ++ r). split; [reflexivity|]. intros r' E. injection E as E _. contradiction.
Qed.
Lemma in_code_dec cs : in_code cs \/ ~ in_code cs.
Proof. destruct cs as [[] []]; unfold in_code; cbn; auto. right. intros [F|F]; discriminate. Qed.
Lemma doubled_dec c s : (exists d l r s', mark d l r /\ c :: s = [d; d] ++ s') \/
  (forall d l r s', mark d l r -> c :: s <> [d; d] ++ s').
Proof.
  destruct s as [|e s].
  - right. intros d l r s' _ E. discriminate.
  - destruct (ascii_dec c e) as [<-|N].
    + destruct (ascii_dec c "=") as [->|N1]; [left; exists "="%char, (B "{=="), (B "==}"), s; split; [constructor|reflexivity]|].
      destruct (ascii_dec c "~") as [->|N2]; [left; exists "~"%char, (B "{--"), (B "--}"), s; split; [constructor|reflexivity]|].
      right. intros d l r s' M E. injection E as E _. destruct M; contradiction.
    + right. intros d l r s' _ E. injection E as E1 E2 _. congruence.
Qed.
Lemma rewrites_total : forall n s cs, length s <= n -> exists o, rewrites cs s o.
Proof.
  induction n as [|n IH]; intros s cs L.
  - destruct s; [|cbn in L; lia]. exists []. constructor.
  - destruct (split_ticks s) as ([|k] & r & -> & P).
    + cbn [repeat app] in *. destruct r as [|c r]; [exists []; constructor|]. cbn in L.
      assert (Nt : c <> tick) by (intros ->; now apply (P r)).
      destruct (in_code_dec cs) as [C|C].
      * destruct (IH r cs) as (o & H); [lia|]. exists (c :: o). now apply w_code.
      * destruct (doubled_dec c r) as [(d & l & q & s' & M & E)|N].
        -- injection E as -> ->. cbn in L. destruct (strstr [d; d] s') as [i|] eqn:F.
           ++ apply first_shortest in F as (x & u & -> & _ & Sh). rewrite !app_length in L. cbn in L.
              destruct (IH u cs) as (o & H); [lia|]. exists (l ++ x ++ q ++ o). now apply (w_mark cs d l q x u o).
           ++ destruct (IH s' cs) as (o & H); [lia|]. exists (d :: d :: o).
              apply (w_open cs d l q s' o); auto. now apply strstr_none.
        -- destruct (IH r cs) as (o & H); [lia|]. exists (c :: o). now apply w_plain.
    + rewrite app_length, repeat_length in L. destruct (IH r (after_ticks (S k) cs)) as (o & H); [lia|].
      exists (repeat tick (S k) ++ o). apply w_ticks; auto; lia.
Qed.

Lemma proofread_rewrites text o : rewrites outside text o ->
  exists w, proofread text = Some w /\ w_out w = o /\ w_oob w = false.
Proof.
  intro H. destruct (loop_rewrites _ _ _ H (S (length text)) (Rs false false 0) (w_new (length text * 2 + 1) (length text * 2 + 1)))
    as (w & E & O & B); auto.
  - unfold room, w_new. cbn. lia.
  - exists w. auto.
Qed.
Lemma proofread_total text : exists w, proofread text = Some w /\ rewrites outside text (w_out w) /\ w_oob w = false.
Proof.
  destruct (rewrites_total (length text) text outside (le_n _)) as (o & H).
  destruct (proofread_rewrites text o H) as (w & E & <- & B). eauto.
Qed.

(** ** Uniqueness, and simple texts *)
Lemma rewrites_fun text o o' : rewrites outside text o -> rewrites outside text o' -> o = o'.
Proof.
  intros H1 H2. destruct (proofread_rewrites _ _ H1) as (w & E & <- & _).
  destruct (proofread_rewrites _ _ H2) as (w' & E' & <- & _). congruence.
Qed.
Definition simple (c : ascii) : Prop := c <> tick /\ c <> "="%char /\ c <> "~"%char.
Lemma simple_front a : Forall simple a -> forall s o, rewrites outside s o -> rewrites outside (a ++ s) (a ++ o).
Proof.
  induction 1 as [|c a (N1 & N2 & N3) _ IH]; intros s o H; [assumption|]. cbn [app]. apply w_plain; auto.
  - intros [F|F]; discriminate.
  - intros d l r s' M E. injection E as E _. destruct M; contradiction.
Qed.
Lemma simple_code b i a : b || i = true -> Forall (fun c => c <> tick) a -> forall s o, rewrites (In_code b i) s o -> rewrites (In_code b i) (a ++ s) (a ++ o).
Proof.
  intros C. induction 1 as [|c a N _ IH]; intros s o H; [assumption|]. cbn [app]. apply w_code; auto.
  unfold in_code. cbn. now apply Bool.orb_true_iff.
Qed.
Lemma simple_shortest d x : ~ In d x -> shortest d x.
Proof.
  intros N a b E. destruct (exists_last (l := [d; d] ++ b)) as (u & e & Eu); [discriminate|].
  rewrite Eu, app_assoc in E. apply app_inj_tail in E as [E <-]. apply N. rewrite E. apply in_app_iff. right.
  destruct u as [|f u]; [destruct b; discriminate|]. injection Eu as <- _. now left.
Qed.
Lemma simple_mark d l r a x b o : mark d l r -> Forall simple a -> ~ In d x -> rewrites outside b o ->
  rewrites outside (a ++ [d; d] ++ x ++ [d; d] ++ b) (a ++ l ++ x ++ r ++ o).
Proof.
  intros M Ha Hx H. apply simple_front; [assumption|]. apply w_mark; auto; [intros [F|F]; discriminate|].
  now apply simple_shortest.
Qed.
Lemma simple_tick a x b o : Forall simple a -> Forall (fun c => c <> tick) x -> x <> [] -> plainly b -> rewrites outside b o ->
  rewrites outside (a ++ [tick] ++ x ++ [tick] ++ b) (a ++ [tick] ++ x ++ [tick] ++ o).
Proof.
  intros Ha Hx Nx Hb H. apply simple_front; [assumption|].
  apply (w_ticks outside 1); [lia| |].
  - intros r E. destruct x as [|c x]; [contradiction|]. injection E as -> _. inversion Hx; congruence.
  - apply (simple_code false true); auto. apply (w_ticks _ 1); auto.
Qed.
