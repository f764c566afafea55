(** Lemmas for C210-C214. *)
From Verif Require Import Base BaseL M_Pass M_Prefix S_Prefix L_Divs2 L_Pass.
From Coq Require Import NArith.
Local Arguments starts : simpl never.

(** ** The prefix *)
Lemma hex_length k n : length (hex k n) = k.
Proof. revert n. induction k as [|k IH]; intros n; [reflexivity|]. cbn [hex]. rewrite app_length, IH. cbn. lia. Qed.
Lemma hex_bytes k n : Forall hex_byte (hex k n).
Proof.
  revert n. induction k as [|k IH]; intros n; [constructor|]. cbn [hex]. apply Forall_app. split; [apply IH|]. constructor; [|constructor]. unfold hex_byte, hex_digit. apply nth_In.
  assert (L : (n mod 16 < 16)%N) by (apply N.mod_lt; discriminate). change (length (B "0123456789abcdef")) with 16. lia.
Qed.
Lemma strip_length k s : length s - k <= length (strip k s).
Proof. revert s. induction k as [|k IH]; intros s; [destruct s; cbn; lia|]. destruct s as [|c s]; [cbn; lia|]. cbn [strip]. destruct (ceq c "0"%char); [|lia]. specialize (IH s). cbn [length]. lia. Qed.
Lemma strip_bytes k s : Forall hex_byte s -> Forall hex_byte (strip k s).
Proof. revert s. induction k as [|k IH]; intros s F; [destruct s; exact F|]. destruct F as [|c s C F]; [constructor|]. cbn [strip]. destruct (ceq c "0"%char); [apply IH, F|constructor; assumption]. Qed.
Lemma firstn_forall {A} (P : A -> Prop) n l : Forall P l -> Forall P (firstn n l).
Proof. intros F. revert n. induction F as [|x l X F IH]; intros n; [rewrite firstn_nil; constructor|]. destruct n; [constructor|]. cbn. constructor; auto. Qed.
Lemma prefix_shape text : length (prefix text) = 8 /\ Forall hex_byte (prefix text).
Proof.
  unfold prefix. split; [|apply firstn_forall, strip_bytes, hex_bytes]. rewrite firstn_length. pose proof (strip_length 8 (hex 16 (djb2 text))) as L. rewrite hex_length in L. lia.
Qed.
Lemma hex_split j k n : hex (j + k) n = hex j (n / 16 ^ N.of_nat k)%N ++ hex k n.
Proof.
  revert n. induction k as [|k IH]; intros n.
  - rewrite Nat.add_0_r. cbn [hex]. change (16 ^ N.of_nat 0)%N with 1%N. rewrite N.div_1_r, app_nil_r. reflexivity.
  - rewrite <- plus_n_Sm. cbn [hex]. rewrite IH, <- app_assoc. f_equal. f_equal. rewrite N.div_div by (try discriminate; apply N.pow_nonzero; discriminate). f_equal.
    rewrite Nat2N.inj_succ, N.pow_succ_r'. reflexivity.
Qed.
Lemma hex_front k n : (n / 16 ^ N.of_nat k < 16)%N -> hex (S k) n = hex_digit (n / 16 ^ N.of_nat k) :: hex k n.
Proof.
  intros L. change (S k) with (1 + k). rewrite hex_split. cbn [hex app]. rewrite N.mod_small by exact L. reflexivity.
Qed.
Lemma digit_nonzero n : (0 < n < 16)%N -> ceq (hex_digit n) "0"%char = false.
Proof.
  intros L. assert (D : In n [1; 2; 3; 4; 5; 6; 7; 8; 9; 10; 11; 12; 13; 14; 15]%N) by (cbn [In]; lia). cbn [In] in D. repeat (destruct D as [<-|D]; [reflexivity|]). destruct D.
Qed.
Lemma prefix_top text : (268435456 <= djb2 text / 4294967296 < 4294967296)%N -> prefix text = hex 8 (djb2 text / 4294967296)%N.
Proof.
  intros L. unfold prefix. change 16 with (8 + 8). rewrite hex_split. change (16 ^ N.of_nat 8)%N with 4294967296%N. set (t := (djb2 text / 4294967296)%N) in *.
  assert (Q : (0 < t / 16 ^ N.of_nat 7 < 16)%N).
  { change (16 ^ N.of_nat 7)%N with 268435456%N. split; [|apply N.div_lt_upper_bound; [discriminate|lia]]. apply N.div_str_pos. lia. }
  assert (H : hex 8 t = hex_digit (t / 16 ^ N.of_nat 7) :: hex 7 t) by (apply hex_front; lia).
  assert (S : strip 8 (hex 8 t ++ hex 8 (djb2 text)) = hex 8 t ++ hex 8 (djb2 text)) by (rewrite H; cbn [app strip]; rewrite digit_nonzero by exact Q; reflexivity).
  rewrite S. apply firstn_exact. rewrite hex_length. reflexivity.
Qed.
Lemma djb2_bound text : (djb2 text < wide)%N.
Proof.
  unfold djb2. assert (H : forall s h, (h < wide)%N -> (fold_left (fun h c => ((h * 33 + code c) mod wide)%N) s h < wide)%N).
  { induction s as [|c s IH]; intros h L; [exact L|]. cbn [fold_left]. apply IH. apply N.mod_lt. discriminate. }
  apply H. reflexivity.
Qed.
Lemma top_bound text : (djb2 text / 4294967296 < 4294967296)%N.
Proof. apply N.div_lt_upper_bound; [discriminate|]. pose proof (djb2_bound text) as L. unfold wide in L. lia. Qed.

(** ** The ids *)
Definition held (w : wr) : Prop := w_bad w = false /\ length (w_out w) <= w_cap w.
Lemma fits_held w : fits w -> held w.
Proof. intros [A L]. split; [exact A|lia]. Qed.
Lemma byte_held c w : held w -> fits (byte c w) /\ w_out (byte c w) = w_out w ++ [c].
Proof.
  intros [Bd L]. unfold byte, emit, fits. destruct (left_ w <? 10) eqn:Q; cbn [w_bad w_cap w_out grow]; (split; [split|reflexivity]); try rewrite app_length; cbn [length]; try (rewrite Bd; cbn [orb]; apply Nat.ltb_ge); unfold left_ in Q; [lia|lia| |]; apply Nat.ltb_ge in Q; lia.
Qed.
Lemma room_held x extra w : held w -> 0 < extra -> let w' := if left_ w <=? length x then grow (length x + extra) w else w in fits (emit x w') /\ w_out (emit x w') = w_out w ++ x.
Proof.
  intros [Bd L] E. cbv zeta. unfold emit, fits. destruct (left_ w <=? length x) eqn:Q; cbn [w_bad w_cap w_out grow]; (split; [split|reflexivity]); try rewrite app_length; try (rewrite Bd; cbn [orb]; apply Nat.ltb_ge); unfold left_ in Q; [lia|lia| |]; apply Nat.leb_gt in Q; lia.
Qed.
Lemma hyphen_held w : fits w -> held (emit (B "-") w) /\ w_out (emit (B "-") w) = w_out w ++ B "-".
Proof.
  intros [Bd L]. unfold emit, held. cbn [w_bad w_cap w_out]. split; [split|reflexivity].
  - rewrite Bd. cbn [orb]. apply Nat.ltb_ge. change (length (B "-")) with 1. lia.
  - rewrite app_length. change (length (B "-")) with 1. lia.
Qed.
Lemma keyed_held p k w : held w -> held (keyed p k w) /\ w_out (keyed p k w) = w_out w ++ k ++ p ++ B "-".
Proof.
  intros H. unfold keyed. destruct (room_held k (length p + 100) w H) as [F1 O1]; [lia|]. cbv zeta in F1, O1. rewrite Nat.add_assoc in F1, O1. cbv zeta. remember (emit k _) as w1 eqn:E1. clear E1.
  destruct (room_held p 100 w1 (fits_held _ F1)) as [F2 O2]; [lia|]. cbv zeta in F2, O2. remember (emit p _) as w2 eqn:E2. clear E2.
  destruct (hyphen_held w2 F2) as [H3 O3]. split; [exact H3|]. rewrite O3, O2, O1, <- !app_assoc. reflexivity.
Qed.
Lemma starts_begins x s : starts x s = true <-> begins x s.
Proof. apply starts_spec. Qed.
Lemma key_distinct k s : key k -> starts (B "id=""fn-") (k ++ s) = seq_ k (B "id=""fn-") /\ starts (B "id=""fnref-") (k ++ s) = seq_ k (B "id=""fnref-") /\
  starts (B "href=""#fn-") (k ++ s) = seq_ k (B "href=""#fn-") /\ starts (B "href=""#fnref-") (k ++ s) = seq_ k (B "href=""#fnref-").
Proof. intros [-> | [-> | [-> | ->]]]; vm_compute; auto. Qed.
Lemma ids_key fuel p k s w : key k -> ids (S fuel) p (k ++ s) w = ids fuel p s (keyed p k w).
Proof.
  intros K. destruct (key_distinct k s K) as (D1 & D2 & D3 & D4).
  assert (E : exists c r, k ++ s = c :: r) by (destruct K as [-> | [-> | [-> | ->]]]; do 2 eexists; reflexivity). destruct E as (c & r & E). rewrite E. cbn [ids]. rewrite <- E. rewrite D1, D2, D3, D4.
  assert (Sk : forall k', k = k' -> skipn (length k') (k ++ s) = s) by (intros k' <-; apply skipn_exact; reflexivity).
  cbv zeta. destruct K as [K | [K | [K | K]]]; rewrite (Sk _ K); rewrite K; reflexivity.
Qed.
Lemma ids_byte fuel p c s w : (forall k, key k -> ~ begins k (c :: s)) -> ids (S fuel) p (c :: s) w = ids fuel p s (byte c w).
Proof.
  intros N. cbn [ids]. rewrite (bool_false (starts (B "id=""fn-") _)) by (rewrite starts_begins; apply N; unfold key; auto). rewrite (bool_false (starts (B "id=""fnref-") _)) by (rewrite starts_begins; apply N; unfold key; auto).
  rewrite (bool_false (starts (B "href=""#fn-") _)) by (rewrite starts_begins; apply N; unfold key; auto). rewrite (bool_false (starts (B "href=""#fnref-") _)) by (rewrite starts_begins; apply N; unfold key; auto). reflexivity.
Qed.
Lemma key_len k : key k -> 0 < length k.
Proof. intros [-> | [-> | [-> | ->]]]; cbn; lia. Qed.
Lemma ids_spec p s h : Prefixed p s h -> forall fuel w, length s < fuel -> held w -> held (ids fuel p s w) /\ w_out (ids fuel p s w) = w_out w ++ h /\ (s = [] \/ ends_in_key s \/ fits (ids fuel p s w)).
Proof.
  induction 1 as [|k s h K P IH|c s h N P IH]; intros fuel w L H; (destruct fuel as [|fuel]; [lia|]).
  - cbn. rewrite app_nil_r. auto.
  - rewrite ids_key by exact K. destruct (keyed_held p k w H) as [H1 O1]. rewrite app_length in L. pose proof (key_len k K) as Lk.
    destruct (IH fuel _ (ltac:(lia)) H1) as (H2 & O2 & E2). split; [exact H2|]. split; [rewrite O2, O1, <- !app_assoc; reflexivity|]. right. destruct E2 as [->|[(a & k' & K' & ->)|F]].
    + left. exists [], k. rewrite app_nil_r. auto.
    + left. exists (k ++ a), k'. rewrite <- app_assoc. auto.
    + right. exact F.
  - rewrite ids_byte by exact N. destruct (byte_held c w H) as [F1 O1]. cbn [length] in L. destruct (IH fuel _ (ltac:(lia)) (fits_held _ F1)) as (H2 & O2 & E2). split; [exact H2|]. split; [rewrite O2, O1, <- !app_assoc; reflexivity|].
    right. destruct E2 as [->|[(a & k' & K' & ->)|F]]; [right; destruct fuel; exact F1|left; exists (c :: a), k'; auto|right; exact F].
Qed.
Lemma key_dec s : (exists k r, key k /\ s = k ++ r) \/ forall k, key k -> ~ begins k s.
Proof.
  destruct (starts (B "id=""fn-") s) eqn:E1; [left; apply starts_spec in E1 as [r ->]; do 2 eexists; split; [|reflexivity]; unfold key; auto|].
  destruct (starts (B "id=""fnref-") s) eqn:E2; [left; apply starts_spec in E2 as [r ->]; do 2 eexists; split; [|reflexivity]; unfold key; auto|].
  destruct (starts (B "href=""#fn-") s) eqn:E3; [left; apply starts_spec in E3 as [r ->]; do 2 eexists; split; [|reflexivity]; unfold key; auto|].
  destruct (starts (B "href=""#fnref-") s) eqn:E4; [left; apply starts_spec in E4 as [r ->]; do 2 eexists; split; [|reflexivity]; unfold key; auto|].
  right. intros k [-> | [-> | [-> | ->]]] H; apply starts_begins in H; congruence.
Qed.
Lemma prefixed_total p s : exists h, Prefixed p s h.
Proof.
  assert (H : forall n s, length s < n -> exists h, Prefixed p s h).
  { induction n as [|n IH]; intros t L; [lia|]. destruct t as [|c t]; [exists []; constructor|]. destruct (key_dec (c :: t)) as [(k & r & K & E)|N].
    - rewrite E in *. rewrite app_length in L. pose proof (key_len k K). destruct (IH r) as [h P]; [lia|]. eexists. apply Pf_key; eassumption.
    - destruct (IH t) as [h P]; [cbn in L; lia|]. eexists. apply Pf_byte; eassumption. }
  exact (H (S (length s)) s (Nat.lt_succ_diag_r _)).
Qed.
Lemma add_spec p s h : Prefixed p s h -> ~ ends_in_key s -> add_prefix p s = Out h.
Proof.
  intros P N. unfold add_prefix. assert (F0 : fits (start (length s + (length p + 1) * 100 + 1))) by (apply start_fits; lia).
  destruct (ids_spec p s h P (S (length s)) _ (ltac:(lia)) (fits_held _ F0)) as (H & O & [->|[E|F]]).
  - cbn [ids length] in *. rewrite finish_fits by exact F0. f_equal. exact O.
  - contradiction.
  - rewrite finish_fits by exact F. f_equal. exact O.
Qed.
(** ** Links and their targets *)
Lemma key_no_overlap k k' a x y : key k -> key k' -> k ++ x = a ++ k' ++ y -> a = [] \/ exists b, a = k ++ b.
Proof.
  intros K K' E. destruct (Nat.le_gt_cases (length k) (length a)) as [L|L].
  - right. destruct (app_split a (k' ++ y) k x (eq_sym E) L) as (b & -> & _). exists b. reflexivity.
  - left. destruct a as [|c a]; [reflexivity|]. exfalso. destruct (app_split k x (c :: a) (k' ++ y) E) as (b & Eb & E2); [lia|].
    destruct b as [|d b]; [rewrite Eb, app_length in L; cbn in L; lia|].
    assert (D : d = "i"%char \/ d = "h"%char) by (destruct K' as [-> | [-> | [-> | ->]]]; injection E2 as <- _; auto).
    assert (I : In d (tl k)) by (rewrite Eb; cbn [tl]; apply in_or_app; right; left; reflexivity).
    destruct K as [-> | [-> | [-> | ->]]]; destruct D as [-> | ->]; revert I; cbn; intuition discriminate.
Qed.
Lemma prefixed_at p k x : key k -> forall s h, Prefixed p s h -> forall u r, s = u ++ k ++ x ++ r -> (forall k', key k' -> forall a b y, x = a ++ b -> b <> [] -> b ++ r <> k' ++ y) ->
  exists u' r', h = u' ++ k ++ p ++ B "-" ++ x ++ r'.
Proof.
  intros K s h P. induction P as [|k0 s h K0 P IH|c s h N P IH]; intros u r E C.
  - destruct u; [|discriminate]. destruct K as [-> | [-> | [-> | ->]]]; discriminate.
  - destruct (key_no_overlap k0 k u s (x ++ r) K0 K E) as [->|[b ->]].
    + cbn [app] in E. assert (KK : k0 = k).
      { destruct K0 as [-> | [-> | [-> | ->]]]; destruct K as [-> | [-> | [-> | ->]]]; try reflexivity; discriminate. }
      subst k0. apply app_inv_head in E. subst s.
      assert (T : forall y h', Prefixed p (y ++ r) h' -> (exists a, x = a ++ y) -> exists r', h' = y ++ r').
      { clear - C. induction y as [|d y IHy]; intros h' P' [a A]; [exists h'; reflexivity|]. inversion P' as [|k1 s1 h1 K1 P1 E1|c1 s1 h1 N1 P1 E1]; subst.
        - exfalso. apply (C k1 K1 a (d :: y) s1 eq_refl); [discriminate|]. symmetry. exact E1.
        - destruct (IHy h1 P1) as [r' ->]; [exists (a ++ [d]); rewrite <- app_assoc; reflexivity|]. exists r'. reflexivity. }
      destruct (T x h P) as [r' ->]; [exists []; reflexivity|]. exists [], r'. reflexivity.
    + rewrite <- app_assoc in E. apply app_inv_head in E. destruct (IH b r E C) as (u' & r' & ->). exists (k0 ++ p ++ B "-" ++ u'), r'. rewrite <- !app_assoc. reflexivity.
  - destruct u as [|d u].
    + exfalso. apply (N k K). exists (x ++ r). exact E.
    + injection E as -> E. destruct (IH u r E C) as (u' & r' & ->). exists (d :: u'), r'. reflexivity.
Qed.
Lemma prefixed_label p k x u r h : key k -> ~ In DQ x -> ~ In "="%char x -> Prefixed p (u ++ k ++ x ++ [DQ] ++ r) h -> exists u' r', h = u' ++ k ++ p ++ B "-" ++ x ++ [DQ] ++ r'.
Proof.
  intros K N1 N2 P. destruct (prefixed_at p k (x ++ [DQ]) K _ h P u r) as (u' & r' & ->); [rewrite <- app_assoc; reflexivity| |exists u', r'; rewrite <- app_assoc; reflexivity].
  intros k' K' a b y E Z Q. assert (Eb : exists b0, b = b0 ++ [DQ] /\ x = a ++ b0).
  { destruct (exists_last Z) as (b0 & d & ->). rewrite app_assoc in E. apply app_inj_tail in E as [-> ->]. exists b0. auto. }
  destruct Eb as (b0 & -> & ->). assert (M1 : ~ In DQ b0) by (intros I; apply N1, in_or_app; right; exact I). assert (M2 : ~ In "="%char b0) by (intros I; apply N2, in_or_app; right; exact I). clear - K' Q M1 M2.
  rewrite <- app_assoc in Q. destruct K' as [-> | [-> | [-> | ->]]]; (destruct b0 as [|c0 b0]; [discriminate|]); injection Q as -> Q; (destruct b0 as [|c1 b0]; [discriminate|]); injection Q as -> Q; (destruct b0 as [|c2 b0]; [discriminate|]); injection Q as -> Q.
  - apply M2. right. right. left. reflexivity.
  - apply M2. right. right. left. reflexivity.
  - destruct b0 as [|c3 b0]; [discriminate|]. injection Q as -> Q. destruct b0 as [|c4 b0]; [discriminate|]. injection Q as -> Q. apply M2. do 4 right. left. reflexivity.
  - destruct b0 as [|c3 b0]; [discriminate|]. injection Q as -> Q. destruct b0 as [|c4 b0]; [discriminate|]. injection Q as -> Q. apply M2. do 4 right. left. reflexivity.
Qed.
