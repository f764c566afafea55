(** Lemmas about the buffer, the UTF-8 check, the renderer and the minimal parser. *)
From Verif Require Import Base BaseL M_Core S_Core.

(** ** Buffer *)
Lemma store_ok m : forall i c, i < length m -> store m i c = Some (firstn i m ++ Some c :: skipn (S i) m).
Proof.
  induction m as [|x m IH]; intros i c L; [cbn in L; lia|]. destruct i as [|i]; [reflexivity|].
  cbn [store firstn skipn app]. rewrite IH by (cbn in L; lia). reflexivity.
Qed.
Lemma skipn_add {A} a : forall b (l : list A), skipn a (skipn b l) = skipn (b + a) l.
Proof. intros b. induction b as [|b IH]; intros l; [reflexivity|]. destruct l; [rewrite !skipn_nil; reflexivity|]. apply IH. Qed.
Lemma stores_ok s : forall m i, i + length s <= length m ->
  stores m i s = Some (firstn i m ++ map Some s ++ skipn (i + length s) m).
Proof.
  induction s as [|c s IH]; intros m i L.
  - cbn [stores map app length]. rewrite Nat.add_0_r, firstn_skipn. reflexivity.
  - cbn [length] in L. cbn [stores]. rewrite store_ok by lia. rewrite IH.
    + f_equal. assert (LF : length (firstn i m) = i) by (apply firstn_length_le; lia).
      rewrite firstn_app, LF. replace (S i - i) with 1 by lia. rewrite firstn_all2 by lia.
      rewrite skipn_app, LF. rewrite (skipn_all2 (firstn i m)) by lia. cbn [app]. replace (S i + length s - i) with (S (length s)) by lia.
      cbn [firstn skipn length map]. rewrite <- app_assoc. cbn [app]. f_equal. f_equal. f_equal.
      change (skipn (length s) (skipn (S i) m) = skipn (i + S (length s)) m). rewrite skipn_add. f_equal. lia.
    + rewrite app_length, firstn_length_le by lia. cbn [length]. rewrite skipn_length. lia.
Qed.
Lemma grow_ok fuel : forall cap needed, 0 < cap -> needed <= cap + fuel ->
  exists n, grow_to fuel cap needed = Some n /\ needed <= n /\ cap <= n.
Proof.
  induction fuel as [|f IH]; intros cap needed P L; cbn [grow_to]; destruct (Nat.ltb cap needed) eqn:E.
  - apply Nat.ltb_lt in E. lia.
  - apply Nat.ltb_ge in E. exists cap. auto.
  - destruct (IH (2 * cap) needed) as (n & A & B1 & C); [lia|lia|]. exists n. split; [exact A|lia].
  - apply Nat.ltb_ge in E. exists cap. auto.
Qed.
Lemma grow_hang fuel needed : 0 < needed -> grow_to fuel 0 needed = None.
Proof.
  intros P. induction fuel as [|f IH]; cbn [grow_to]; replace (Nat.ltb 0 needed) with true by (symmetry; apply Nat.ltb_lt, P); [reflexivity|exact IH].
Qed.
Lemma holds_cap b t : holds b (Some t) -> length t < b_cap b.
Proof.
  intros (m & D & L & S & F & N). rewrite <- L. destruct (Nat.lt_ge_cases (length t) (length m)) as [|G]; [assumption|].
  rewrite nth_overflow in N by lia. discriminate.
Qed.
Lemma append_ok s t b : holds b (Some t) -> exists b', buffer_append s b = Go b' /\ holds b' (Some (t ++ s)).
Proof.
  intros H. pose proof (holds_cap b t H) as C. destruct H as (m & D & L & S & F & N).
  destruct s as [|c s0]; [exists b; cbn; rewrite app_nil_r; split; [reflexivity|]; exists m; auto|].
  set (s := c :: s0). unfold buffer_append. unfold s at 1. cbv iota.
  set (needed := b_size b + length s + 1).
  assert (A : exists m1 n1, (if Nat.ltb (b_cap b) needed
             then match grow_to needed (b_cap b) needed with
                  | Some n => Some (Buf (Some (realloc_to n (b_data b))) (b_size b) n)
                  | None => None
                  end
             else Some b) = Some (Buf (Some m1) (length t) n1) /\ length m1 = n1 /\ needed <= n1 /\ firstn (length t) m1 = map Some t).
  { destruct (Nat.ltb (b_cap b) needed) eqn:E.
    - destruct (grow_ok needed (b_cap b) needed) as (n & G & G1 & G2); [lia|lia|]. rewrite G.
      exists (realloc_to n (b_data b)), n. rewrite <- S. split; [reflexivity|]. unfold realloc_to. rewrite D. cbv zeta. split; [|split].
      + rewrite app_length. unfold block. rewrite repeat_length, firstn_all2 by lia. lia.
      + exact G1.
      + rewrite firstn_all2 with (n := n) by lia. rewrite firstn_app. rewrite S. rewrite F.
        replace (length t - length m) with 0 by lia. cbn [firstn]. apply app_nil_r.
    - apply Nat.ltb_ge in E. exists m, (b_cap b). split; [rewrite <- S, <- D; destruct b; reflexivity|]. split; [exact L|]. split; [exact E|exact F]. }
  destruct A as (m1 & n1 & -> & L1 & G1 & F1). cbn [b_data b_size b_cap].
  assert (K : length t + length s + 1 <= length m1) by (unfold needed in G1; lia).
  rewrite stores_ok by lia.
  set (m2 := firstn (length t) m1 ++ map Some s ++ skipn (length t + length s) m1).
  assert (L2 : length m2 = length m1).
  { unfold m2. rewrite !app_length, map_length, skipn_length, firstn_length_le by lia. lia. }
  rewrite store_ok by lia. eexists. split; [reflexivity|].
  exists (firstn (length t + length s) m2 ++ Some NUL :: skipn (Datatypes.S (length t + length s)) m2). cbn [b_data b_size b_cap].
  assert (LF : length (firstn (length t + length s) m2) = length t + length s) by (apply firstn_length_le; lia).
  split; [reflexivity|]. split; [rewrite app_length, LF; cbn [length]; rewrite skipn_length; lia|].
  rewrite app_length. split; [reflexivity|]. split.
  - rewrite firstn_app, LF, Nat.sub_diag, firstn_firstn, Nat.min_id. cbn [firstn]. rewrite app_nil_r. unfold m2.
    rewrite F1, app_assoc, <- map_app, firstn_app, map_length, app_length, Nat.sub_diag. cbn [firstn]. rewrite app_nil_r.
    apply firstn_all2. rewrite map_length, app_length. lia.
  - rewrite app_nth2 by lia. rewrite LF, Nat.sub_diag. reflexivity.
Qed.
Lemma op_ok o x b y : holds b x -> on_string o x = Some y -> exists b', buffer_op o b = Go b' /\ holds b' y.
Proof.
  intros H E. destruct o as [n| |s| |]; cbn [buffer_op] in *.
  - destruct x; apply Some_inj in E; subst y; unfold buffer_init;
      set (k := if Nat.eqb n 0 then 256 else n); assert (P : 0 < k) by (unfold k; destruct (Nat.eqb n 0) eqn:Z0; [apply Nat.ltb_lt; reflexivity|apply Nat.eqb_neq in Z0; lia]);
      (rewrite store_ok by (unfold block; rewrite repeat_length; exact P)); (eexists; split; [reflexivity|]);
      (eexists; split; [reflexivity|]); cbn [b_cap b_size firstn app length map nth]; rewrite skipn_length; unfold block; rewrite repeat_length;
      repeat split; lia.
  - destruct x as [t|]; apply Some_inj in E; subst y; unfold buffer_clear.
    + pose proof (holds_cap b t H) as C. destruct H as (m & D & L & _). rewrite D, store_ok by lia.
      eexists. split; [reflexivity|]. eexists. split; [reflexivity|]. cbn [b_cap b_size firstn app length map nth]. rewrite skipn_length.
      repeat split; lia.
    + destruct H as (D & S & C). rewrite D. eexists. split; [reflexivity|]. cbn. auto.
  - destruct x as [t|].
    + destruct s; apply Some_inj in E; subst y; apply append_ok, H.
    + destruct s; [|discriminate]. apply Some_inj in E. subst y. exists b. auto.
  - assert (y = None) as -> by (destruct x; apply Some_inj in E; auto). unfold buffer_free.
    destruct x as [t|]; [destruct H as (m & D & _); rewrite D|destruct H as (D & S & C); rewrite D]; eexists; (split; [reflexivity|]); cbn; auto.
  - assert (y = None) as -> by (destruct x; apply Some_inj in E; auto). eexists. split; [reflexivity|]. cbn. auto.
Qed.
Lemma run_ok os : forall x b y, holds b x -> on_strings os x = Some y -> exists b', buffer_run os b = Go b' /\ holds b' y.
Proof.
  induction os as [|o os IH]; intros x b y H E; cbn [on_strings buffer_run] in *.
  - apply Some_inj in E. subst y. exists b. auto.
  - destruct (on_string o x) as [z|] eqn:Q; [|discriminate]. destruct (op_ok o x b z H Q) as (b1 & -> & H1). exact (IH _ _ _ H1 E).
Qed.
Lemma init_holds n : exists b, buffer_init n = Go b /\ holds b (Some []).
Proof. exact (op_ok (Init n) None (Buf None 0 0) (Some []) (conj eq_refl (conj eq_refl eq_refl)) eq_refl). Qed.
Lemma run_app a b0 : forall b, buffer_run (a ++ b0) b = match buffer_run a b with Go b1 => buffer_run b0 b1 | r => r end.
Proof.
  induction a as [|o a IH]; intros b; cbn [app buffer_run]; [reflexivity|]. destruct (buffer_op o b); [apply IH|reflexivity|reflexivity].
Qed.
Lemma append_hang s b : s <> [] -> holds b None -> buffer_append s b = Hang.
Proof.
  intros N (D & S & C). unfold buffer_append. destruct s as [|c s]; [congruence|]. rewrite C, S. cbn [Nat.add length].
  replace (Nat.ltb 0 (Datatypes.S (length s + 1))) with true by reflexivity. rewrite grow_hang by lia. reflexivity.
Qed.

(** ** UTF-8 *)
Lemma between_from lo hi c : between lo hi c = true <-> from_to lo hi c.
Proof. unfold between, from_to. rewrite andb_true_iff, !N.leb_le. reflexivity. Qed.
Lemma trail_cont c : trail c = true <-> cont c.
Proof. apply between_from. Qed.
Lemma utf8_skip a r : utf8_loop (a ++ r) (length a) = utf8_loop r 0.
Proof. induction a as [|c a IH]; [reflexivity|]. exact IH. Qed.
Lemma char_length_cases c :
  (from_to 0 127 c /\ char_length c = 1) \/ (from_to 192 223 c /\ char_length c = 2) \/
  (from_to 224 239 c /\ char_length c = 3) \/ (from_to 240 247 c /\ char_length c = 4) \/
  (char_length c = 0 /\ valid_start c = false).
Proof.
  unfold char_length, valid_start.
  destruct (between 0 127 c) eqn:E1; [apply between_from in E1; tauto|].
  destruct (between 192 223 c) eqn:E2; [apply between_from in E2; tauto|].
  destruct (between 224 239 c) eqn:E3; [apply between_from in E3; tauto|].
  destruct (between 240 247 c) eqn:E4; [apply between_from in E4; tauto|]. do 4 right. auto.
Qed.
Lemma framed_shape u : framed u <->
  exists c t, u = c :: t /\ 0 < char_length c /\ S (length t) = char_length c /\ forallb trail t = true.
Proof.
  split.
  - intros H. destruct H as [c H|c d H K|c d e H K1 K2|c d e f H K1 K2 K3]; eexists _, _; (split; [reflexivity|]);
      unfold char_length; pose proof H as H'; apply between_from in H'; unfold from_to in H;
      repeat match goal with |- context [between ?a ?b ?x] =>
        first [rewrite H' | replace (between a b x) with false by (symmetry; destruct (between a b x) eqn:Q; [apply between_from in Q; unfold from_to in Q; lia|reflexivity])] end;
      (split; [lia|]); (split; [reflexivity|]); cbn [forallb]; repeat match goal with K : cont _ |- _ => apply trail_cont in K; rewrite K; clear K end; reflexivity.
  - intros (c & t & -> & P & L & T).
    destruct (char_length_cases c) as [[F E]|[[F E]|[[F E]|[[F E]|[E _]]]]]; rewrite E in *; try lia;
      destruct t as [|d [|e [|f [|g t]]]]; cbn [length] in L; try lia; cbn [forallb] in T; rewrite ?andb_true_iff in T; rewrite ?trail_cont in T;
      constructor; tauto.
Qed.
Lemma utf8_step c s : utf8_loop (c :: s) 0 =
  if Nat.eqb (char_length c) 0 || Nat.ltb (length (c :: s)) (char_length c) then false
  else if forallb trail (firstn (char_length c - 1) s) then utf8_loop s (char_length c - 1) else false.
Proof. reflexivity. Qed.
Lemma utf8_framed u r : framed u -> utf8_loop (u ++ r) 0 = utf8_loop r 0.
Proof.
  intros H. apply framed_shape in H as (c & t & -> & P & L & T). cbn [app]. rewrite utf8_step.
  replace (Nat.eqb (char_length c) 0) with false by (symmetry; apply Nat.eqb_neq; lia).
  replace (Nat.ltb (length (c :: t ++ r)) (char_length c)) with false by (symmetry; apply Nat.ltb_ge; cbn [length]; rewrite app_length; lia).
  cbn [orb]. replace (char_length c - 1) with (length t) by lia. rewrite firstn_app, Nat.sub_diag, firstn_all. cbn [firstn].
  rewrite app_nil_r, T. apply utf8_skip.
Qed.
Lemma utf8_sound n : forall s, length s <= n -> utf8_loop s 0 = true -> exists l, Forall framed l /\ s = concat l.
Proof.
  induction n as [|n IH]; intros s L H; [destruct s; [|cbn in L; lia]; exists []; split; [constructor|reflexivity]|].
  destruct s as [|c s]; [exists []; split; [constructor|reflexivity]|]. rewrite utf8_step in H.
  destruct (Nat.eqb (char_length c) 0) eqn:E1; [discriminate|]. destruct (Nat.ltb (length (c :: s)) (char_length c)) eqn:E2; [discriminate|].
  cbn [orb] in H. apply Nat.eqb_neq in E1. apply Nat.ltb_ge in E2. cbn [length] in E2, L.
  destruct (forallb trail (firstn (char_length c - 1) s)) eqn:T; [|discriminate].
  assert (LT : length (firstn (char_length c - 1) s) = char_length c - 1) by (apply firstn_length_le; lia).
  pose proof H as H2. rewrite <- (firstn_skipn (char_length c - 1) s) in H2. rewrite <- LT in H2 at 3. rewrite utf8_skip in H2.
  destruct (IH (skipn (char_length c - 1) s) ltac:(rewrite skipn_length; lia) H2) as (l & A & E).
  exists ((c :: firstn (char_length c - 1) s) :: l). split.
  - constructor; [|exact A]. apply framed_shape. eexists _, _. split; [reflexivity|]. split; [lia|]. split; [lia|exact T].
  - cbn [concat app]. rewrite <- E, firstn_skipn. reflexivity.
Qed.
Lemma utf8_complete l : Forall framed l -> utf8_loop (concat l) 0 = true.
Proof. induction 1 as [|u l H Hl IH]; [reflexivity|]. cbn [concat]. rewrite utf8_framed by exact H. exact IH. Qed.
Lemma wellformed_framed u : wellformed u -> framed u.
Proof.
  intros H. destruct H; constructor; unfold from_to, cont in *; try assumption; try lia;
    match goal with |- context [code ?c] => is_ground c; let v := eval vm_compute in (code c) in change (code c) with v end; lia.
Qed.

(** ** Reading HTML is unambiguous *)
Lemma ref_amp e c : In (e, c) refs -> exists t, e = "&"%char :: t.
Proof. intros I. cbn [refs In] in I. repeat (destruct I as [E|I]; [injection E as <- _; eexists; reflexivity|]). destruct I. Qed.
Lemma ref_split e c e' c' s s' : In (e, c) refs -> In (e', c') refs -> e ++ s = e' ++ s' -> e = e' /\ c = c' /\ s = s'.
Proof.
  intros I I'. cbn [refs In] in I, I'.
  repeat (destruct I as [E|I]; [injection E as <- <-;
    repeat (destruct I' as [E'|I']; [injection E' as <- <-; cbn [B list_ascii_of_string app]; intros Q; try discriminate Q; injection Q as Q; auto|]); destruct I'|]).
  destruct I.
Qed.
Lemma reads_fun s t : reads s t -> forall t', reads s t' -> t = t'.
Proof.
  induction 1 as [|e c s t I H IH|c s t N H IH]; intros t' H'.
  - remember (@nil ascii) as z eqn:Z. destruct H' as [|e c s t I H|c s t N H]; [reflexivity| |discriminate].
    destruct (ref_amp e c I) as (q & ->). discriminate.
  - remember (e ++ s) as z eqn:Z. destruct H' as [|e' c' s' t' I' H'|c' s' t' N' H'].
    + destruct (ref_amp e c I) as (q & ->). discriminate.
    + destruct (ref_split e' c' e c s' s I' I Z) as (_ & -> & ->). f_equal. apply IH, H'.
    + destruct (ref_amp e c I) as (q & ->). injection Z as -> _. exfalso. apply N'. cbn. auto.
  - remember (c :: s) as z eqn:Z. destruct H' as [|e' c' s' t' I' H'|c' s' t' N' H'].
    + discriminate.
    + destruct (ref_amp e' c' I') as (q & ->). injection Z as <- _. exfalso. apply N. cbn. auto.
    + injection Z as -> ->. f_equal. apply IH, H'.
Qed.
Lemma value_fun s v r : value s v r -> forall v' r', value s v' r' -> v = v' /\ r = r'.
Proof.
  induction 1 as [r|e c s v r I H IH|c s v r N1 N2 H IH]; intros v' r' H'.
  - remember (DQ :: r) as z eqn:Z. destruct H' as [r'|e' c' s' v' r' I' H'|c' s' v' r' N1' N2' H'].
    + injection Z as ->. auto.
    + destruct (ref_amp e' c' I') as (q & ->). discriminate.
    + congruence.
  - remember (e ++ s) as z eqn:Z. destruct (ref_amp e c I) as (q & Q). destruct H' as [r'|e' c' s' v' r' I' H'|c' s' v' r' N1' N2' H'].
    + subst e. discriminate.
    + destruct (ref_split e' c' e c s' s I' I Z) as (_ & -> & ->). destruct (IH _ _ H') as [-> ->]. auto.
    + subst e. injection Z as -> _. congruence.
  - remember (c :: s) as z eqn:Z. destruct H' as [r'|e' c' s' v' r' I' H'|c' s' v' r' N1' N2' H'].
    + congruence.
    + destruct (ref_amp e' c' I') as (q & ->). injection Z as <- _. congruence.
    + injection Z as -> ->. destruct (IH _ _ H') as [-> ->]. auto.
Qed.
Lemma alnum_split n : forall n' x s y s', forallb isalnum n = true -> forallb isalnum n' = true ->
  isalnum x = false -> isalnum y = false -> n ++ x :: s = n' ++ y :: s' -> n = n' /\ x = y /\ s = s'.
Proof.
  induction n as [|c n IH]; intros n' x s y s' A A' X Y E.
  - destruct n' as [|d n']; [injection E as -> ->; auto|]. injection E as -> _. cbn [forallb] in A'. rewrite X in A'. discriminate.
  - destruct n' as [|d n']; [injection E as -> _; cbn [forallb] in A; rewrite Y in A; discriminate|].
    injection E as -> E. cbn [forallb] in A, A'. apply andb_true_iff in A as [_ A], A' as [_ A'].
    destruct (IH n' x s y s' A A' X Y E) as (-> & -> & ->). auto.
Qed.
Lemma name_head n s : name_ok n -> exists c q, n ++ s = c :: q /\ isalnum c = true.
Proof.
  intros [N A]. destruct n as [|c n]; [congruence|]. exists c, (n ++ s). cbn [forallb] in A. apply andb_true_iff in A as [A _]. auto.
Qed.
Lemma attributes_fun s l r : attributes s l r -> forall l' r', attributes s l' r' -> l = l' /\ r = r'.
Proof.
  induction 1 as [r Q|n s v s1 l r N V H IH]; intros l' r' H'.
  - remember r as z eqn:Z in H'. destruct H' as [r' Q'|n' s' v' s1' l' r' N' V' H']; [auto|].
    exfalso. destruct Q as (q & [-> | ->]); [discriminate|]. injection Z as Z.
    destruct (name_head n' (B "=""" ++ s') N') as (c & q' & E & A). cbn [B list_ascii_of_string app] in E. rewrite Z in E. injection E as <- _. discriminate.
  - remember (SP :: n ++ B "=""" ++ s) as z eqn:Z. destruct H' as [r' Q'|n' s' v' s1' l' r' N' V' H'].
    + exfalso. destruct Q' as (q & [-> | ->]); [discriminate|]. injection Z as Z.
      destruct (name_head n (B "=""" ++ s) N) as (c & q' & E & A). cbn [B list_ascii_of_string app] in E. rewrite <- Z in E. injection E as <- _. discriminate.
    + injection Z as Z. destruct (alnum_split n' n "=" (DQ :: s') "=" (DQ :: s)) as (-> & _ & E); [apply N'|apply N|reflexivity|reflexivity|exact Z|].
      injection E as ->. destruct (value_fun _ _ _ V _ _ V') as [-> ->]. destruct (IH _ _ H') as [-> ->]. auto.
Qed.
Lemma attributes_head s l r : attributes s l r -> exists x q, s = x :: q /\ isalnum x = false.
Proof.
  intros H. destruct H as [r (q & [-> | ->])|]; eexists _, _; (split; [reflexivity|]); reflexivity.
Qed.
Lemma name_split n n' s s' l r l' r' : name_ok n -> name_ok n' -> attributes s l r -> attributes s' l' r' ->
  n ++ s = n' ++ s' -> n = n' /\ s = s'.
Proof.
  intros [_ A] [_ A'] H H' E. destruct (attributes_head _ _ _ H) as (x & q & -> & X). destruct (attributes_head _ _ _ H') as (y & q' & -> & Y).
  destruct (alnum_split n n' x q y q' A A' X Y E) as (-> & -> & ->). auto.
Qed.
Lemma html_fun s f r : html s f r -> forall f' r', html s f' r' -> f = f' /\ r = r'.
Proof.
  induction 1 as [|s|e c s f r I H IH|c s f r N1 N2 H IH|n s l s1 f r N A H IH|n s l s1 b s2 f r N A Hb IHb H IH]; intros f' r' H'.
  - remember (@nil ascii) as z eqn:Z. destruct H' as [|s'|e' c' s' f' r' I' H'|c' s' f' r' N1' N2' H'|n' s' l' s1' f' r' N' A' H'|n' s' l' s1' b' s2' f' r' N' A' Hb' H'];
      try discriminate; [auto|]. destruct (ref_amp e' c' I') as (q & ->). discriminate.
  - remember (B "</" ++ s) as z eqn:Z. destruct H' as [|s'|e' c' s' f' r' I' H'|c' s' f' r' N1' N2' H'|n' s' l' s1' f' r' N' A' H'|n' s' l' s1' b' s2' f' r' N' A' Hb' H'].
    + discriminate.
    + auto.
    + destruct (ref_amp e' c' I') as (q & ->). discriminate.
    + injection Z as -> _. congruence.
    + exfalso. injection Z as Z. destruct (name_head n' s' N') as (d & q & E & AL). rewrite E in Z. injection Z as -> _. discriminate.
    + exfalso. injection Z as Z. destruct (name_head n' s' N') as (d & q & E & AL). rewrite E in Z. injection Z as -> _. discriminate.
  - destruct (ref_amp e c I) as (q & Q).
    remember (e ++ s) as z eqn:Z. destruct H' as [|s'|e' c' s' f' r' I' H'|c' s' f' r' N1' N2' H'|n' s' l' s1' f' r' N' A' H'|n' s' l' s1' b' s2' f' r' N' A' Hb' H'];
      try (subst e; discriminate Z).
    + destruct (ref_split e' c' e c s' s I' I Z) as (_ & -> & ->). destruct (IH _ _ H') as [-> ->]. auto.
    + subst e. injection Z as -> _. congruence.
  - remember (c :: s) as z eqn:Z. destruct H' as [|s'|e' c' s' f' r' I' H'|c' s' f' r' N1' N2' H'|n' s' l' s1' f' r' N' A' H'|n' s' l' s1' b' s2' f' r' N' A' Hb' H'];
      try discriminate; try (injection Z as <- _; congruence).
    + destruct (ref_amp e' c' I') as (q & ->). injection Z as <- _. congruence.
    + injection Z as -> ->. destruct (IH _ _ H') as [-> ->]. auto.
  - remember ("<"%char :: n ++ s) as z eqn:Z. destruct H' as [|s'|e' c' s' f' r' I' H'|c' s' f' r' N1' N2' H'|n' s' l' s1' f' r' N' A' H'|n' s' l' s1' b' s2' f' r' N' A' Hb' H'].
    + discriminate.
    + exfalso. injection Z as Z. destruct (name_head n s N) as (d & q & E & AL). rewrite E in Z. injection Z as <- _. discriminate.
    + destruct (ref_amp e' c' I') as (q & ->). discriminate.
    + injection Z as -> _. congruence.
    + injection Z as Z. destruct (name_split _ _ _ _ _ _ _ _ N' N A' A Z) as [-> ->].
      destruct (attributes_fun _ _ _ A _ _ A') as [-> E]. apply app_inv_head in E. subst s1'. destruct (IH _ _ H') as [-> ->]. auto.
    + injection Z as Z. destruct (name_split _ _ _ _ _ _ _ _ N' N A' A Z) as [-> ->].
      destruct (attributes_fun _ _ _ A _ _ A') as [_ E]. discriminate.
  - remember ("<"%char :: n ++ s) as z eqn:Z. destruct H' as [|s'|e' c' s' f' r' I' H'|c' s' f' r' N1' N2' H'|n' s' l' s1' f' r' N' A' H'|n' s' l' s1' b' s2' f' r' N' A' Hb' H'].
    + discriminate.
    + exfalso. injection Z as Z. destruct (name_head n s N) as (d & q & E & AL). rewrite E in Z. injection Z as <- _. discriminate.
    + destruct (ref_amp e' c' I') as (q & ->). discriminate.
    + injection Z as -> _. congruence.
    + injection Z as Z. destruct (name_split _ _ _ _ _ _ _ _ N' N A' A Z) as [-> ->].
      destruct (attributes_fun _ _ _ A _ _ A') as [_ E]. discriminate.
    + injection Z as Z. destruct (name_split _ _ _ _ _ _ _ _ N' N A' A Z) as [-> ->].
      destruct (attributes_fun _ _ _ A _ _ A') as [-> E]. injection E as ->. destruct (IHb _ _ Hb') as [-> E].
      apply app_inv_head, app_inv_head in E. injection E as ->. destruct (IH _ _ H') as [-> ->]. auto.
Qed.

(** ** Escaping *)
Lemma escape_cases c :
  (exists e, In (e, c) refs /\ escape_char c = e) \/ (~ In c (B "<>&""") /\ escape_char c = [c]).
Proof.
  unfold escape_char.
  destruct (ceq c "<") eqn:E1; [apply ceq_eq in E1; subst; left; eexists; split; [|reflexivity]; cbn; auto|].
  destruct (ceq c ">") eqn:E2; [apply ceq_eq in E2; subst; left; eexists; split; [|reflexivity]; cbn; auto|].
  destruct (ceq c "&") eqn:E3; [apply ceq_eq in E3; subst; left; eexists; split; [|reflexivity]; cbn; auto|].
  destruct (ceq c DQ) eqn:E4; [apply ceq_eq in E4; subst; left; eexists; split; [|reflexivity]; cbn; auto|].
  apply ceq_neq in E1, E2, E3, E4. right. split; [|reflexivity]. unfold DQ in E4. cbn. intuition congruence.
Qed.
Lemma escape_reads s : reads (escape_html s) s.
Proof.
  induction s as [|c s IH]; [constructor|]. unfold escape_html. cbn [flat_map]. fold (escape_html s).
  destruct (escape_cases c) as [(e & I & ->)|[N ->]]; [apply R_ref; assumption|]. apply R_byte; assumption.
Qed.
Lemma escape_html_inert s c : In c (escape_html s) -> ~ In c (B "<>""").
Proof.
  unfold escape_html. rewrite in_flat_map. intros (d & _ & I). destruct (escape_cases d) as [(e & R & E)|[N E]]; rewrite E in I.
  - assert (A : forallb (fun p => forallb (fun x => negb (existsb (ceq x) (B "<>"""))) (fst p)) refs = true) by reflexivity.
    rewrite forallb_forall in A. specialize (A _ R). cbn [fst] in A. rewrite forallb_forall in A. specialize (A _ I).
    intros J. apply negb_true_iff in A. assert (existsb (ceq c) (B "<>""") = true); [|congruence].
    apply existsb_exists. exists c. split; [exact J|apply ceq_refl].
  - destruct I as [<-|[]]. cbn in *. intuition.
Qed.
Lemma escape_value s r : value (escape_html s ++ DQ :: r) s r.
Proof.
  induction s as [|c s IH]; [constructor|]. unfold escape_html. cbn [flat_map]. fold (escape_html s). rewrite <- app_assoc.
  destruct (escape_cases c) as [(e & I & ->)|[N ->]]; [apply V_ref; assumption|]. cbn [app].
  apply V_byte; [| |exact IH]; intros ->; apply N; cbn; auto.
Qed.
Lemma escape_text s x f r : html x f r -> html (escape_html s ++ x) (chars s ++ f) r.
Proof.
  intros H. induction s as [|c s IH]; [exact H|]. unfold escape_html. cbn [flat_map chars map app]. fold (escape_html s). fold (chars s). rewrite <- app_assoc.
  destruct (escape_cases c) as [(e & I & ->)|[N ->]]; [apply H_ref; assumption|]. cbn [app].
  apply H_byte; [| |exact IH]; intros ->; apply N; cbn; auto.
Qed.
Lemma opt_text l x f r : html x f r -> html (opt_escape l ++ x) (chars (given l) ++ f) r.
Proof. destruct l as [s|]; [apply escape_text|auto]. Qed.

(** ** Putting documents together *)
Lemma value_app s v r : value s v r -> forall b, value (s ++ b) v (r ++ b).
Proof.
  induction 1 as [r|e c s v r I H IH|c s v r N1 N2 H IH]; intros b; [constructor|rewrite <- app_assoc; apply V_ref; auto|].
  cbn [app]. apply V_byte; auto.
Qed.
Lemma attributes_app s l r : attributes s l r -> forall b, attributes (s ++ b) l (r ++ b).
Proof.
  induction 1 as [r (q & Q)|n s v s1 l r N V H IH]; intros b.
  - constructor. exists (q ++ b). destruct Q as [-> | ->]; [left|right]; reflexivity.
  - cbn [app]. rewrite <- !app_assoc. apply (A_one n (s ++ b) v (s1 ++ b)); auto. apply value_app, V.
Qed.
Lemma html_extend s f r : html s f r -> r <> [] -> forall b, html (s ++ b) f (r ++ b).
Proof.
  induction 1 as [|s|e c s f r I H IH|c s f r N1 N2 H IH|n s l s1 f r N A H IH|n s l s1 d s2 f r N A Hb IHb H IH]; intros NE b.
  - congruence.
  - rewrite <- !app_assoc. apply H_close.
  - rewrite <- app_assoc. apply H_ref; auto.
  - cbn [app]. apply H_byte; auto.
  - cbn [app]. rewrite <- app_assoc. apply (H_void n (s ++ b) l (s1 ++ b)); auto.
    pose proof (attributes_app _ _ _ A b) as K. rewrite <- app_assoc in K. exact K.
  - cbn [app]. rewrite <- app_assoc. apply (H_elem n (s ++ b) l (s1 ++ b) d (s2 ++ b)); auto.
    + exact (attributes_app _ _ _ A b).
    + specialize (IHb ltac:(discriminate) b). rewrite <- !app_assoc in IHb. exact IHb.
Qed.
Lemma html_app s f r : html s f r -> r = [] -> forall b g q, html b g q -> html (s ++ b) (f ++ g) q.
Proof.
  induction 1 as [|s|e c s f r I H IH|c s f r N1 N2 H IH|n s l s1 f r N A H IH|n s l s1 d s2 f r N A Hb IHb H IH]; intros NE b g q K.
  - exact K.
  - discriminate.
  - rewrite <- app_assoc. apply H_ref; auto.
  - cbn [app]. apply H_byte; auto.
  - cbn [app]. rewrite <- app_assoc. apply (H_void n (s ++ b) l (s1 ++ b)); auto.
    pose proof (attributes_app _ _ _ A b) as Q. rewrite <- app_assoc in Q. exact Q.
  - cbn [app]. rewrite <- app_assoc. apply (H_elem n (s ++ b) l (s1 ++ b) d (s2 ++ b)); auto.
    + exact (attributes_app _ _ _ A b).
    + pose proof (html_extend _ _ _ Hb ltac:(discriminate) b) as Q. rewrite <- !app_assoc in Q. exact Q.
Qed.

(** ** Rendering *)
Lemma node_ind2 (P : node -> Prop) : (forall k l cs, Forall P cs -> P (Node k l cs)) -> forall n, P n.
Proof.
  intros H. fix IH 1. intros [k l cs]. apply H. induction cs as [|c cs IHcs]; constructor; [apply IH|exact IHcs].
Qed.
Lemma close n s f x : html s f [] -> html (s ++ B "</" ++ n ++ ">"%char :: x) f (B "</" ++ n ++ ">"%char :: x).
Proof. intros H. pose proof (html_app _ _ _ H eq_refl _ _ _ (H_close (n ++ ">"%char :: x))) as K. rewrite app_nil_r in K. exact K. Qed.
Lemma close_text n l x : html (opt_escape l ++ B "</" ++ n ++ ">"%char :: x) (chars (given l)) (B "</" ++ n ++ ">"%char :: x).
Proof. pose proof (opt_text l _ _ _ (H_close (n ++ ">"%char :: x))) as K. rewrite app_nil_r in K. exact K. Qed.
Lemma no_attrs q : attributes (">"%char :: q) [] (">"%char :: q).
Proof. constructor. exists q. auto. Qed.
Lemma attr_one n v q l r : name_ok n -> attributes q l r ->
  attributes (B " " ++ n ++ B "=""" ++ escape_html v ++ B """" ++ q) ((n, v) :: l) r.
Proof. intros N A. apply (A_one n _ v q); [exact N|apply escape_value|exact A]. Qed.
Lemma attr_opt v q r : attributes q [] r -> attributes (attr (B "title") v ++ q) (titled v) r.
Proof.
  intros A. destruct v as [s|]; [|exact A]. unfold attr, titled. rewrite <- !app_assoc.
  apply (attr_one (B "title") s q []); [split; [discriminate|reflexivity]|exact A].
Qed.
Lemma given_escape u : opt_escape u = escape_html (given u).
Proof. destruct u; reflexivity. Qed.
Lemma drop_end_app f s : forall t, (exists c q, drop_end f t = c :: q) -> drop_end f (s ++ t) = s ++ drop_end f t.
Proof.
  intros t (c & q & E). induction s as [|d s IH]; [reflexivity|]. cbn [app drop_end]. rewrite IH, E. destruct s; reflexivity.
Qed.
Lemma drop_end_all f s : forallb f s = true -> drop_end f s = [].
Proof. induction s as [|c s IH]; [reflexivity|]. cbn [forallb drop_end]. rewrite andb_true_iff. intros [A A']. rewrite IH, A by exact A'. reflexivity. Qed.
Lemma drop_end_snoc f s c : drop_end f (s ++ [c]) = if f c then drop_end f s else s ++ [c].
Proof.
  induction s as [|d s IH]; cbn [app drop_end]; [destruct (f c); reflexivity|]. rewrite IH.
  destruct (f c); [reflexivity|]. destruct (s ++ [c]) eqn:E; [destruct s; discriminate|reflexivity].
Qed.
Lemma drop_end_trim f s : drop_end f s = trim f s.
Proof.
  unfold trim. induction s as [|c s IH] using rev_ind; [reflexivity|].
  rewrite drop_end_snoc, rev_app_distr. cbn [rev app drop_while]. destruct (f c); [exact IH|].
  cbn [rev]. rewrite rev_involutive. reflexivity.
Qed.
Lemma first_word_span s : fst (span (fun c => negb (ceq c SP)) s) = first_word s.
Proof. induction s as [|c s IH]; [reflexivity|]. cbn [span first_word]. destruct (ceq c SP); [reflexivity|]. cbn [negb]. destruct (span _ s). cbn [fst] in *. f_equal. exact IH. Qed.
Lemma nok n : n <> [] -> forallb isalnum n = true -> name_ok n.
Proof. split; assumption. Qed.
Ltac named := apply nok; [discriminate|reflexivity].
Lemma nl_end : html [NL] [Ch NL] [].
Proof. apply H_byte; [discriminate|discriminate|constructor]. Qed.
Lemma escape_lang s : escape_html (B "language-" ++ s) = B "language-" ++ escape_html s.
Proof. reflexivity. Qed.
Lemma render_ok o n : proper n -> html (render o n) (shape o n) [].
Proof.
  induction n as [k lit cs IH] using node_ind2. intros P. inversion P as [k' l' cs' PK PC]; subst.
  assert (IN : html (flat_map (render o) cs) (flat_map (shape o) cs) []).
  { clear P PK. induction cs as [|c cs IHcs]; [constructor|]. inversion IH; subst. inversion PC; subst. cbn [flat_map].
    apply (html_app (render o c) (shape o c) []); auto. }
  cbn [render shape]. set (inner := flat_map (render o) cs) in *. set (forest := flat_map (shape o) cs) in *. clearbody inner forest. clear P PC IH.
  assert (BR : html (B "<br />" ++ [NL]) [Vd (B "br") []; Ch NL] []).
  { apply (H_void (B "br") (B " />" ++ [NL]) [] [NL]); [named| |exact nl_end]. constructor. exists [NL]. auto. }
  destruct k as [|lv| |i| | | | | | | | |u t|u t| | |].
  - exact IN.
  - set (x := match lit with Some s => Some (drop_end (fun c => ceq c SP || ceq c NL || ceq c CR) s) | None => None end).
    assert (X : given x = trim (fun c => ceq c SP || ceq c NL || ceq c CR) (given lit)).
    { unfold x. destruct lit; cbn [given]; [apply drop_end_trim|reflexivity]. }
    rewrite <- X. assert (D : [digit lv] = B (nth lv ["0"; "1"; "2"; "3"; "4"; "5"; "6"]%string ""%string) /\ isalnum (digit lv) = true).
    { destruct lv as [|[|[|[|[|[|[|lv]]]]]]]; try (split; reflexivity). lia. }
    destruct D as [<- D].
    apply (H_elem ("h"%char :: [digit lv]) (">"%char :: opt_escape x ++ B "</h" ++ [digit lv] ++ B ">" ++ [NL]) []
             (opt_escape x ++ B "</h" ++ [digit lv] ++ B ">" ++ [NL]) (chars (given x)) [NL] [Ch NL] []);
      [split; [discriminate|cbn [forallb]; rewrite D; reflexivity]|apply no_attrs| |exact nl_end].
    exact (close_text ("h"%char :: [digit lv]) x [NL]).
  - set (x := match lit with Some s => Some (drop_end (fun c => ceq c NL || ceq c CR) s) | None => None end).
    assert (X : given x = trim (fun c => ceq c NL || ceq c CR) (given lit)).
    { unfold x. destruct lit; cbn [given]; [apply drop_end_trim|reflexivity]. }
    rewrite <- X.
    apply (H_elem (B "p") (">"%char :: opt_escape x ++ B "</p>" ++ [NL]) [] (opt_escape x ++ B "</p>" ++ [NL]) (chars (given x)) [NL] [Ch NL] []);
      [named|apply no_attrs|exact (close_text (B "p") x [NL])|exact nl_end].
  - set (cls := match i with Some s => [(B "class", B "language-" ++ first_word s)] | None => [] end).
    set (a := match i with Some s => B " class=""language-" ++ escape_html (fst (span (fun c => negb (ceq c SP)) s)) ++ B """" | None => [] end).
    apply (H_elem (B "pre") (">"%char :: B "<code" ++ a ++ B ">" ++ opt_escape lit ++ B "</code></pre>" ++ [NL]) []
             (B "<code" ++ a ++ B ">" ++ opt_escape lit ++ B "</code></pre>" ++ [NL]) [El (B "code") cls (chars (given lit))] [NL] [Ch NL] []);
      [named|apply no_attrs| |exact nl_end].
    apply (H_elem (B "code") (a ++ B ">" ++ opt_escape lit ++ B "</code></pre>" ++ [NL]) cls (opt_escape lit ++ B "</code></pre>" ++ [NL]) (chars (given lit))
             (B "</pre>" ++ [NL]) [] (B "</pre>" ++ [NL])); [named| |exact (close_text (B "code") lit (B "</pre>" ++ [NL]))|exact (H_close (B "pre>" ++ [NL]))].
    unfold a, cls. destruct i as [s|]; [|apply no_attrs]. rewrite first_word_span, <- !app_assoc.
    apply (attr_one (B "class") (B "language-" ++ first_word s) (B ">" ++ opt_escape lit ++ B "</code></pre>" ++ [NL]) []); [named|apply no_attrs].
  - apply (H_void (B "hr") (B " />" ++ [NL]) [] [NL]); [named| |exact nl_end]. constructor. exists [NL]. auto.
  - apply (H_elem (B "blockquote") (">"%char :: NL :: inner ++ B "</blockquote>" ++ [NL]) [] (NL :: inner ++ B "</blockquote>" ++ [NL]) (Ch NL :: forest) [NL] [Ch NL] []);
      [named|apply no_attrs| |exact nl_end]. apply H_byte; [discriminate|discriminate|]. exact (close (B "blockquote") inner forest [NL] IN).
  - apply (H_elem (B "ul") (">"%char :: NL :: inner ++ B "</ul>" ++ [NL]) [] (NL :: inner ++ B "</ul>" ++ [NL]) (Ch NL :: forest) [NL] [Ch NL] []);
      [named|apply no_attrs| |exact nl_end]. apply H_byte; [discriminate|discriminate|]. exact (close (B "ul") inner forest [NL] IN).
  - apply (H_elem (B "li") (">"%char :: inner ++ B "</li>" ++ [NL]) [] (inner ++ B "</li>" ++ [NL]) forest [NL] [Ch NL] []);
      [named|apply no_attrs|exact (close (B "li") inner forest [NL] IN)|exact nl_end].
  - pose proof (opt_text lit [] [] [] H_end) as K. rewrite !app_nil_r in K. exact K.
  - apply (H_elem (B "em") (">"%char :: inner ++ B "</em>") [] (inner ++ B "</em>") forest [] [] []);
      [named|apply no_attrs|exact (close (B "em") inner forest [] IN)|constructor].
  - apply (H_elem (B "strong") (">"%char :: inner ++ B "</strong>") [] (inner ++ B "</strong>") forest [] [] []);
      [named|apply no_attrs|exact (close (B "strong") inner forest [] IN)|constructor].
  - apply (H_elem (B "code") (">"%char :: opt_escape lit ++ B "</code>") [] (opt_escape lit ++ B "</code>") (chars (given lit)) [] [] []);
      [named|apply no_attrs|exact (close_text (B "code") lit [])|constructor].
  - rewrite given_escape.
    apply (H_elem (B "a") (B " href=""" ++ escape_html (given u) ++ B """" ++ attr (B "title") t ++ B ">" ++ inner ++ B "</a>") ((B "href", given u) :: titled t)
             (inner ++ B "</a>") forest [] [] []); [named| |exact (close (B "a") inner forest [] IN)|constructor].
    apply (attr_one (B "href") (given u) (attr (B "title") t ++ B ">" ++ inner ++ B "</a>")); [named|]. apply attr_opt, no_attrs.
  - rewrite !given_escape.
    apply (H_void (B "img") (B " src=""" ++ escape_html (given u) ++ B """ alt=""" ++ escape_html (given lit) ++ B """" ++ attr (B "title") t ++ B " />")
             ((B "src", given u) :: (B "alt", given lit) :: titled t) [] [] []); [named| |constructor].
    apply (attr_one (B "src") (given u) (B " alt=""" ++ escape_html (given lit) ++ B """" ++ attr (B "title") t ++ B " />")); [named|].
    apply (attr_one (B "alt") (given lit) (attr (B "title") t ++ B " />")); [named|]. apply attr_opt. constructor. exists []. auto.
  - exact BR.
  - destruct (hard o); [exact BR|]. destruct (none o); apply H_byte; try discriminate; constructor.
  - constructor.
Qed.

(** ** The minimal parser *)
Lemma span_stop_app f a x r : forallb f a = true -> f x = false -> span f (a ++ x :: r) = (a, x :: r).
Proof.
  intros A X. induction a as [|c a IH]; cbn [app span]; [rewrite X; reflexivity|].
  cbn [forallb] in A. apply andb_true_iff in A as [-> A]. rewrite IH by exact A. reflexivity.
Qed.
Lemma span_whole f a : forallb f a = true -> span f a = (a, []).
Proof.
  intros A. induction a as [|c a IH]; [reflexivity|]. cbn [span forallb] in *. apply andb_true_iff in A as [-> A]. rewrite IH by exact A. reflexivity.
Qed.
Lemma newlines_all g : newlines g <-> forallb newline g = true.
Proof.
  unfold newlines. rewrite Forall_forall, forallb_forall. unfold newline.
  split; intros H c I; specialize (H c I); rewrite orb_true_iff, !ceq_eq in *; exact H.
Qed.
Lemma no_nl_all s : no_nl s <-> forallb not_nl s = true.
Proof.
  unfold no_nl, not_nl. rewrite forallb_forall. split.
  - intros H c I. apply negb_true_iff, ceq_neq. intros ->. contradiction.
  - intros H I. specialize (H _ I). discriminate.
Qed.
Lemma span_line t r : no_nl t -> ends_or_nl r -> span not_nl (t ++ r) = (t, r).
Proof.
  intros N E. apply no_nl_all in N. destruct E as [-> |(q & ->)]; [rewrite app_nil_r; apply span_whole, N|].
  apply span_stop_app; [exact N|reflexivity].
Qed.
Lemma hashes_repeat n : forall k r, n <= k -> hashes k (repeat "#"%char n ++ SP :: r) = (n, SP :: r).
Proof.
  induction n as [|n IH]; intros k r L; [destruct k; reflexivity|]. destruct k as [|k]; [lia|].
  cbn [repeat app hashes]. rewrite ceq_refl, IH by lia. reflexivity.
Qed.
Lemma hashes_spec k : forall s n r, hashes k s = (n, r) -> s = repeat "#"%char n ++ r /\ n <= k.
Proof.
  induction k as [|k IH]; intros s n r E; [destruct s; injection E as <- <-; split; [reflexivity|lia|reflexivity|lia]|].
  destruct s as [|c s]; cbn [hashes] in E; [injection E as <- <-; split; [reflexivity|lia]|].
  destruct (ceq c "#") eqn:C; [|injection E as <- <-; split; [reflexivity|lia]]. apply ceq_eq in C. subst c.
  destruct (hashes k s) as [m q] eqn:H. injection E as <- <-. destruct (IH _ _ _ H) as [-> L]. split; [reflexivity|lia].
Qed.
Lemma fence_spec s : fence s = true <-> exists q, s = FENCE ++ q.
Proof. apply starts_spec. Qed.
Lemma find_close_first c x : first_at FENCE c -> find_close (c ++ FENCE ++ x) = inl (c, x).
Proof.
  induction c as [|d c IH]; intros H; [reflexivity|].
  cbn [app find_close]. replace (Nat.leb 3 _) with true by (symmetry; apply Nat.leb_le; cbn [length]; rewrite !app_length; cbn [length FENCE]; lia).
  destruct (fence (d :: c ++ FENCE ++ x)) eqn:F.
  - exfalso. apply fence_spec in F as (q & F).
    assert (K : exists b, (d :: c) ++ FENCE = FENCE ++ b /\ b <> []).
    { destruct c as [|c1 [|c2 c]]; cbn [app FENCE] in F |- *; injection F as F1 F; subst;
        try (injection F as F2 F; subst); try (injection F as F3 F; subst);
        (eexists; split; [reflexivity|]); try discriminate. destruct c; discriminate. }
    destruct K as (b & K & NB). apply NB. apply (H [] b). exact K.
  - rewrite IH; [reflexivity|]. intros a b E. apply (H (d :: a) b). cbn [app]. f_equal. exact E.
Qed.
Lemma find_close_short s : length s < 3 -> forall a b, s <> a ++ FENCE ++ b.
Proof. intros L a b ->. rewrite !app_length in L. cbn [length FENCE] in L. lia. Qed.
Lemma find_close_spec s :
  match find_close s with
  | inl (a, r) => s = a ++ FENCE ++ r /\ first_at FENCE a
  | inr _ => forall a b, s <> a ++ FENCE ++ b
  end.
Proof.
  induction s as [|c s IH]; [cbn [find_close]; apply find_close_short; cbn; lia|]. cbn [find_close].
  destruct (Nat.leb 3 (length (c :: s))) eqn:L; [|apply Nat.leb_gt in L; apply find_close_short, L].
  destruct (fence (c :: s)) eqn:F.
  - apply fence_spec in F as (q & F). rewrite F. split; [reflexivity|].
    intros a b E. apply (f_equal (@length _)) in E. rewrite !app_length in E. cbn [length FENCE] in E. destruct b; [reflexivity|cbn in E; lia].
  - destruct (find_close s) as [[a r]|r].
    + destruct IH as [-> FA]. split; [reflexivity|]. intros p b E. destruct p as [|d p].
      * exfalso. assert (X : fence (c :: a ++ FENCE ++ r) = true); [|congruence].
        apply fence_spec. exists (b ++ r). change (c :: a ++ FENCE ++ r) with ((c :: a) ++ FENCE ++ r).
        rewrite app_assoc, E, <- app_assoc. reflexivity.
      * injection E as _ E. exact (FA p b E).
    + intros p b E. destruct p as [|d p]; [|injection E as _ E; exact (IH p b E)].
      assert (X : fence (c :: s) = true); [|congruence]. apply fence_spec. exists b. exact E.
Qed.
Lemma para_first t r : (forall a b, t <> a ++ [NL; NL] ++ b) ->
  r = [] \/ ((exists q, r = [NL; NL] ++ q) /\ forall a, t <> a ++ [NL]) -> para (t ++ r) = (t, r).
Proof.
  induction t as [|c t IH]; intros N E.
  - destruct E as [-> |[(q & ->) _]]; reflexivity.
  - cbn [app para]. destruct (ceq c NL && ceq (at_ (t ++ r) 0) NL) eqn:Q.
    + exfalso. apply andb_true_iff in Q as [Q1 Q2]. apply ceq_eq in Q1, Q2. subst c. destruct t as [|d t].
      * destruct E as [-> |[_ E]]; [discriminate|]. exact (E [] eq_refl).
      * cbn [app at_ nth] in Q2. subst d. exact (N [] t eq_refl).
    + rewrite IH; [reflexivity| |].
      * intros a b X. apply (N (c :: a) b). cbn [app]. f_equal. exact X.
      * destruct E as [-> |[E1 E2]]; [auto|]. right. split; [exact E1|]. intros a X. apply (E2 (c :: a)). cbn [app]. f_equal. exact X.
Qed.
Lemma para_spec s : forall t r, para s = (t, r) -> s = t ++ r /\ (forall a b, t <> a ++ [NL; NL] ++ b) /\
  (r = [] \/ ((exists q, r = [NL; NL] ++ q) /\ forall a, t <> a ++ [NL])).
Proof.
  induction s as [|c s IH]; intros t r E; cbn [para] in E.
  - injection E as <- <-. split; [reflexivity|]. split; [intros [|] b; discriminate|auto].
  - destruct (ceq c NL && ceq (at_ s 0) NL) eqn:Q.
    + injection E as <- <-. apply andb_true_iff in Q as [Q1 Q2]. apply ceq_eq in Q1, Q2. subst c.
      destruct s as [|d s]; [discriminate|]. cbn [at_ nth] in Q2. subst d. split; [reflexivity|]. split; [intros [|] b; discriminate|].
      right. split; [exists s; reflexivity|intros [|]; discriminate].
    + destruct (para s) as [a q] eqn:P. injection E as <- <-. destruct (IH _ _ eq_refl) as (-> & N & R).
      assert (NN : c = NL -> forall x, a ++ q <> NL :: x).
      { intros -> x X. rewrite X in Q. discriminate. }
      split; [reflexivity|]. split.
      * intros p b X. destruct p as [|d p]; [|injection X as _ X; exact (N p b X)]. injection X as -> ->. exact (NN eq_refl _ eq_refl).
      * destruct R as [-> |[(x & ->) R]]; [auto|]. right. split; [eauto|]. intros p X. destruct p as [|d p]; [|injection X as _ X; exact (R p X)].
        injection X as -> ->. exact (NN eq_refl _ eq_refl).
Qed.

(** One part *)
Definition after (f : nat) (s1 : str) (c : ascii) : option (list node) :=
  let add n r := match parse_loop f r with Some l => Some (n :: l) | None => None end in
  let rest :=
    if fence s1 then
      let (info, r) := span not_nl (skipn 3 s1) in
      match find_close (skipn 1 r) with
      | inl (code, r2) => add (Node (CodeBlock (match info with [] => None | _ => Some info end)) (Some code) []) (snd (span not_nl r2))
      | inr r2 => parse_loop f r2
      end
    else let (p, r) := para s1 in
         match p with [] => parse_loop f r | _ => add (Node Paragraph (Some p) []) r end in
  if ceq c "#" then
    let (level, r) := hashes 6 s1 in
    match r with
    | d :: r1 => if ceq d SP then let (t, r2) := span not_nl r1 in add (Node (Heading level) (Some t) []) r2 else rest
    | [] => rest
    end
  else rest.
Lemma parse_round f h c s : newlines h -> newline c = false -> parse_loop (S f) (h ++ c :: s) = after f (c :: s) c.
Proof.
  intros H C. apply newlines_all in H. cbn [parse_loop]. rewrite span_stop_app by assumption. reflexivity.
Qed.
Lemma parse_end f h : newlines h -> parse_loop (S f) h = Some [].
Proof. intros H. apply newlines_all in H. cbn [parse_loop]. rewrite span_whole by exact H. reflexivity. Qed.
Lemma part_round f h p rest : newlines h -> part_ok p rest ->
  parse_loop (S f) (h ++ write_part p ++ rest) =
  match parse_loop f rest with Some l => Some (part_node p :: l) | None => None end.
Proof.
  intros H OK. destruct p as [n t|i c t|t]; cbn [part_ok write_part part_node] in *.
  - destruct OK as (L & N & E). destruct n as [|n]; [lia|]. cbn [repeat app]. rewrite parse_round by (assumption || reflexivity).
    unfold after. cbv zeta. rewrite ceq_refl.
    change ("#"%char :: (repeat "#"%char n ++ SP :: t) ++ rest) with ((repeat "#"%char (S n) ++ SP :: t) ++ rest).
    rewrite <- app_assoc. cbn [app]. rewrite hashes_repeat by lia. rewrite ceq_refl, (span_line t rest N E). reflexivity.
  - destruct OK as (N1 & N2 & FA & E).
    change ((FENCE ++ i ++ NL :: c ++ FENCE ++ t) ++ rest) with (BT :: [BT; BT] ++ (i ++ NL :: c ++ FENCE ++ t) ++ rest).
    rewrite parse_round by (assumption || reflexivity). unfold after. cbv zeta. cbn [ceq app]. change (ceq BT "#") with false. cbv iota.
    change (fence _) with true. cbv iota. cbn [skipn]. rewrite <- app_assoc. cbn [app].
    rewrite span_stop_app by (try reflexivity; apply no_nl_all, N1). cbn [skipn]. rewrite <- !app_assoc, find_close_first by exact FA.
    rewrite (span_line t rest N2 E). reflexivity.
  - destruct OK as ((c & t' & -> & NC1 & NC2) & NH & NF & NN & R). cbn [app].
    assert (C : newline c = false) by (unfold newline; apply orb_false_iff; split; apply ceq_neq; assumption).
    rewrite parse_round by assumption. unfold after. cbv zeta.
    destruct (fence (c :: t' ++ rest)) eqn:F; [apply fence_spec in F as (q & F); exfalso; exact (NF q F)|].
    pose proof (para_first (c :: t') rest NN R) as P. cbn [app] in P. rewrite P.
    destruct (ceq c "#") eqn:Q; [|reflexivity]. destruct (hashes 6 (c :: t' ++ rest)) as [lv r] eqn:HS.
    destruct r as [|d r]; [reflexivity|]. destruct (ceq d SP) eqn:S; [|reflexivity]. exfalso.
    apply ceq_eq in Q, S. subst. apply hashes_spec in HS as [HS L]. destruct lv as [|lv]; [injection HS as ? ?; discriminate|].
    apply (NH (Datatypes.S lv) r); [lia|exact HS].
Qed.
Lemma parts_parse l : forall g fuel, newlines g -> parts_ok l g -> length l < fuel ->
  parse_loop fuel (write_parts l g) = Some (map part_node (map snd l)).
Proof.
  induction l as [|[h p] l IH]; intros g fuel G OK L; (destruct fuel as [|f]; [cbn in L; lia|]).
  - cbn [write_parts map]. apply parse_end, G.
  - cbn [parts_ok write_parts] in *. destruct OK as (H & P & K). rewrite part_round by assumption. cbn [length] in L.
    rewrite IH by (assumption || lia). reflexivity.
Qed.
Lemma write_part_length p rest : part_ok p rest -> 0 < length (write_part p).
Proof.
  destruct p as [n t|i c t|t]; cbn [part_ok write_part].
  - intros _. rewrite app_length. cbn [length]. lia.
  - intros _. cbn [app FENCE length]. lia.
  - intros ((c & t' & -> & _) & _). cbn [length]. lia.
Qed.
Lemma parts_length l : forall g, parts_ok l g -> length l <= length (write_parts l g).
Proof.
  induction l as [|[h p] l IH]; intros g OK; [cbn; lia|]. cbn [parts_ok write_parts length] in *. destruct OK as (_ & P & K).
  rewrite !app_length. pose proof (write_part_length _ _ P). specialize (IH _ K). lia.
Qed.
Lemma parse_parts l g : newlines g -> parts_ok l g -> parse (write_parts l g) = Some (Node Document None (map part_node (map snd l))).
Proof.
  intros G OK. unfold parse. rewrite parts_parse; auto. pose proof (parts_length l g OK). lia.
Qed.

(** Every text *)
Lemma span_newlines s : exists h r, s = h ++ r /\ newlines h /\ snd (span newline s) = r /\ (r = [] \/ exists c q, r = c :: q /\ newline c = false).
Proof.
  destruct (span newline s) as [h r] eqn:E. exists h, r. pose proof (span_app _ _ _ _ E). pose proof (span_all _ _ _ _ E) as A.
  split; [assumption|]. split; [apply newlines_all, A|]. split; [reflexivity|]. destruct r as [|c q]; [auto|]. right. exists c, q.
  split; [reflexivity|]. apply span_stop in E. cbn in E. exact E.
Qed.
Lemma line_end t : exists a r, t = a ++ r /\ no_nl a /\ ends_or_nl r /\ span not_nl t = (a, r).
Proof.
  destruct (span not_nl t) as [a r] eqn:E. exists a, r. split; [apply (span_app _ _ _ _ E)|]. split; [apply no_nl_all, (span_all _ _ _ _ E)|].
  split; [|reflexivity]. destruct r as [|c q]; [left; reflexivity|]. right. exists q. f_equal. apply span_stop in E. cbn in E.
  unfold not_nl in E. apply negb_false_iff, ceq_eq in E. exact E.
Qed.
Lemma some_part s1 c q : s1 = c :: q -> newline c = false ->
  unclosed s1 \/ exists p rest, s1 = write_part p ++ rest /\ part_ok p rest.
Proof.
  intros E C. destruct (fence s1) eqn:F.
  - apply fence_spec in F as (x & ->). destruct (line_end x) as (i & r & -> & N & EN & _). destruct EN as [-> |(y & ->)].
    + left. exists i, []. split; [exact N|]. split; [apply find_close_short; cbn; lia|]. left. rewrite app_nil_r. reflexivity.
    + pose proof (find_close_spec y) as K. destruct (find_close y) as [[a r]|r].
      * right. destruct K as [-> FA]. destruct (line_end r) as (t & r' & -> & N' & EN' & _). exists (PFence i a t), r'.
        split; [cbn [write_part]; rewrite <- !app_assoc; cbn [app]; rewrite <- !app_assoc; reflexivity|]. cbn [part_ok]. auto.
      * left. exists i, y. auto.
  - right. destruct (hashes 6 s1) as [n r] eqn:HS. pose proof (hashes_spec _ _ _ _ HS) as [HE HL].
    assert (PP : (forall m x, 1 <= m <= 6 -> s1 <> repeat "#"%char m ++ SP :: x) -> exists p rest, s1 = write_part p ++ rest /\ part_ok p rest).
    { intros NH. destruct (para s1) as [t r'] eqn:P. destruct (para_spec _ _ _ P) as (PE & PN & PR). exists (PPara t), r'.
      split; [exact PE|]. cbn [part_ok]. rewrite <- PE. split; [|split; [|split; [|split]]]; auto.
      - destruct t as [|d t']; [|exists d, t'; split; [reflexivity|]; rewrite E in PE; injection PE as <- _; unfold newline in C; apply orb_false_iff in C as [C1 C2]; apply ceq_neq in C1, C2; auto].
        exfalso. cbn [app] in PE. rewrite E in P. cbn [para] in P. unfold newline in C. apply orb_false_iff in C as [C1 _]. rewrite C1 in P. cbn [andb] in P.
        destruct (para q). discriminate.
      - intros x X. assert (fence s1 = true); [|congruence]. apply fence_spec. eauto. }
    destruct r as [|d r].
    + apply PP. intros m x M X. rewrite X, hashes_repeat in HS by lia. discriminate.
    + destruct (ceq d SP) eqn:S.
      * apply ceq_eq in S. subst d. destruct n as [|n].
        { apply PP. intros m x M X. rewrite X, hashes_repeat in HS by lia. injection HS as HS _. lia. }
        destruct (line_end r) as (t & r' & -> & N' & EN' & _). exists (PHead (Datatypes.S n) t), r'.
        split; [rewrite HE; cbn [write_part]; rewrite <- app_assoc; reflexivity|]. cbn [part_ok]. split; [lia|auto].
      * apply PP. intros m x M X. rewrite X, hashes_repeat in HS by lia. apply ceq_neq in S. congruence.
Qed.
Lemma every_document n : forall s, length s <= n -> exists l g u,
  newlines g /\ (u = [] \/ unclosed u) /\ parts_ok l (g ++ u) /\ s = write_parts l (g ++ u).
Proof.
  induction n as [|n IH]; intros s L.
  { destruct s; [|cbn in L; lia]. exists [], [], []. repeat split; auto. constructor. }
  destruct (span_newlines s) as (h & r & -> & H & _ & [-> |(c & q & E & C)]).
  - exists [], h, []. repeat split; auto.
  - destruct (some_part r c q E C) as [U|(p & rest & W & OK)].
    + exists [], h, r. repeat split; auto.
    + pose proof (write_part_length _ _ OK) as P. destruct (IH rest) as (l & g & u & G & U & K & X).
      { rewrite W in L. rewrite !app_length in L. lia. }
      exists ((h, p) :: l), g, u. cbn [parts_ok write_parts]. rewrite <- X. rewrite W. auto 6.
Qed.

(** Termination *)
Lemma find_close_len s r : find_close s = inr r -> length r <= length s.
Proof.
  revert r. induction s as [|c s IH]; intros r E; cbn [find_close] in E; [injection E as <-; cbn; lia|].
  destruct (Nat.leb 3 _); [|injection E as <-; lia]. destruct (fence _); [discriminate|].
  destruct (find_close s) as [[a r']|r']; [discriminate|]. injection E as <-. specialize (IH _ eq_refl). cbn [length]. lia.
Qed.
Lemma parse_total n : forall s, length s < n -> exists l, parse_loop n s = Some l.
Proof.
  induction n as [|n IH]; intros s L; [lia|].
  destruct (span_newlines s) as (h & r & -> & H & _ & [-> |(c & q & E & C)]).
  - exists []. rewrite app_nil_r. apply parse_end, H.
  - destruct (some_part r c q E C) as [U|(p & rest & -> & OK)].
    + destruct U as (i & y & N & NF & U). rewrite app_length in L.
      assert (X : exists w, r = BT :: w /\ fence (BT :: w) = true) by (destruct U as [-> | ->]; eexists; split; reflexivity).
      destruct X as (w & X & FE). rewrite X. rewrite parse_round by (assumption || reflexivity). unfold after. cbv zeta.
      change (ceq BT "#") with false. cbv iota. rewrite FE. destruct U as [U|U]; rewrite U in X; injection X as <-; cbn [app skipn].
      * rewrite (span_whole not_nl i) by (apply no_nl_all, N). cbn [skipn find_close]. apply IH. rewrite U in L. cbn in L |- *. lia.
      * rewrite span_stop_app by (try reflexivity; apply no_nl_all, N). cbn [skipn].
        pose proof (find_close_spec y) as K. destruct (find_close y) as [[a r']|r'] eqn:FC; [destruct K as [K _]; exfalso; exact (NF _ _ K)|].
        apply IH. apply find_close_len in FC. rewrite U in L. cbn [app FENCE length] in L. rewrite app_length in L. cbn [length] in L. lia.
    + rewrite part_round by assumption. pose proof (write_part_length _ _ OK) as P. rewrite !app_length in L.
      destruct (IH rest ltac:(lia)) as (l & ->). eexists. reflexivity.
Qed.
