(** Lemmas for P_Incl. *)
From Verif Require Import Base BaseL M_Csv L_Csv S_Lines M_Lines L_Lines M_Incl S_Incl.

(** * Normalizing *)
Lemma after_cons start c a : after_ start (c :: a) = after_ (ceq c NL) a.
Proof.
  unfold after_. cbn [rev]. destruct (rev a) as [|d r] eqn:E; [|reflexivity]. reflexivity.
Qed.
Lemma after_app a : forall start b, after_ start (a ++ b) = after_ (after_ start a) b.
Proof.
  induction a as [|c a IH]; intros start b; [reflexivity|]. cbn [app]. rewrite !after_cons. apply IH.
Qed.
Definition NE (start : bool) (s : str) : Prop := forall a n b,
  s = a ++ repeat BT n ++ b -> after_ start a = true -> at_ b 0 <> BT -> n < 4 \/ Nat.even n = false.
Lemma NE_app start x r : NE start (x ++ r) -> NE (after_ start x) r.
Proof.
  intros H a n b E A B0. apply (H (x ++ a) n b); [rewrite E, <- app_assoc; reflexivity|rewrite after_app; exact A|exact B0].
Qed.
Lemma span_ticks s t r : span (ceq BT) s = (t, r) -> s = t ++ r /\ t = repeat BT (length t) /\ at_ r 0 <> BT.
Proof.
  intros E. pose proof (span_app _ _ _ _ E) as A. pose proof (span_all _ _ _ _ E) as F. pose proof (span_stop _ _ _ _ E) as S1.
  split; [exact A|]. split.
  - clear -F. induction t as [|c t IH]; [reflexivity|]. cbn [forallb] in F. apply andb_true_iff in F as [F1 F2]. apply ceq_eq in F1. subst c.
    cbn [length repeat]. f_equal. exact (IH F2).
  - destruct r as [|c r]; [cbn; discriminate|]. cbn [at_ nth]. intros ->. rewrite ceq_refl in S1. discriminate.
Qed.
Lemma after_ticks start t : t <> [] -> t = repeat BT (length t) -> after_ start t = false.
Proof.
  intros N E. unfold after_.
  destruct (exists_last N) as (a & c & Ea). assert (H : In c t) by (rewrite Ea; apply in_or_app; right; left; reflexivity).
  rewrite E in H. apply repeat_spec in H. rewrite Ea, rev_app_distr, H. reflexivity.
Qed.
Lemma after_line start l : forallb in_line l = true -> start = false -> after_ start l = false.
Proof.
  intros F ->. unfold after_. destruct (rev l) as [|c r] eqn:E; [reflexivity|].
  assert (H : In c l) by (apply in_rev; rewrite E; left; reflexivity). rewrite forallb_forall in F. specialize (F c H).
  unfold in_line in F. apply andb_true_iff in F as [F _]. apply negb_true_iff in F. exact F.
Qed.
Lemma normalize_id fuel : forall s start fence, length s < fuel -> NE start s ->
  match fence with Some (o, w) => o = w | None => True end -> normalize fuel start fence s = s.
Proof.
  induction fuel as [|fuel IH]; intros s start fence L H F; [lia|]. destruct s as [|c r]; [reflexivity|]. cbn [normalize].
  destruct (start && ceq c BT) eqn:Eb.
  - apply andb_true_iff in Eb as [-> Ec]. apply ceq_eq in Ec. subst c.
    destruct (span (ceq BT) (BT :: r)) as [t r1] eqn:Es. destruct (span_ticks _ _ _ Es) as (A & T & S1).
    assert (Nt : t <> []) by (cbn in Es; destruct (span (ceq BT) r); injection Es as <- _; discriminate).
    assert (Lt : length t + length r1 = length (BT :: r)) by (apply (f_equal (@length ascii)) in A; rewrite app_length in A; lia).
    assert (Lp : 0 < length t) by (destruct t; [contradiction|cbn; lia]).
    assert (NEr : NE false r1).
    { rewrite A in H. apply NE_app in H. rewrite (after_ticks true t Nt T) in H. exact H. }
    cbn [length] in *. destruct (Nat.leb_spec 3 (length t)) as [L3|L3].
    + destruct (span in_line r1) as [line r2] eqn:El. pose proof (span_app _ _ _ _ El) as A2.
      pose proof (span_all _ _ _ _ El) as F2. assert (NE2 : NE false r2).
      { rewrite A2 in NEr. apply NE_app in NEr. rewrite (after_line false line F2 eq_refl) in NEr. exact NEr. }
      assert (L2 : length r2 < fuel) by (apply (f_equal (@length ascii)) in A2; rewrite app_length in A2; lia).
      assert (K : forall m f', (match fence with Some (o, w) => if length t =? o then (w, None) else (length t, fence)
        | None => let w := if Nat.even (length t) then S (length t) else length t in (w, Some (length t, w)) end) = (m, f') ->
        m = length t /\ match f' with Some (o, w) => o = w | None => True end).
      { intros m f'. destruct fence as [[o w]|].
        - destruct (Nat.eqb_spec (length t) o); intros E; injection E as <- <-; [subst; auto|auto].
        - assert (Od : Nat.even (length t) = false).
          { destruct (H [] (length t) r1) as [K|K]; [rewrite A, <- T; reflexivity|reflexivity|exact S1| |exact K].
            assert (length t = 3) by lia. rewrite H0. reflexivity. }
          rewrite Od. cbv zeta. intros E. injection E as <- <-. auto. }
      destruct (match fence with Some _ => _ | None => _ end) as [m f'] eqn:Em. destruct (K m f' eq_refl) as [-> Kf].
      rewrite (IH r2 false f' L2 NE2 Kf), <- A2. unfold ticks. rewrite <- T. symmetry. exact A.
    + rewrite (IH r1 false fence ltac:(lia) NEr F). symmetry. exact A.
  - cbn [length] in L. rewrite IH; [reflexivity|lia| |exact F]. apply (NE_app start [c] r) in H. rewrite after_cons in H. exact H.
Qed.
Lemma normalized_id s : no_even_fence s -> normalized s = Some s.
Proof.
  intros H. unfold normalized. cbv zeta. rewrite (normalize_id (S (length s)) s true None); [|lia|exact H|exact I].
  destruct (Nat.ltb_spec (length s) (length s * 2 + 1)); [reflexivity|lia].
Qed.

(** * The writer *)
Definition w_many (u : str) (w : wr) : wr := fold_left (fun w c => w_put c w) u w.
Lemma w_many_app a b w : w_many (a ++ b) w = w_many b (w_many a w).
Proof. apply fold_left_app. Qed.
Lemma w_put_rem c w : w_rem (w_put c w) = w_rem w - 1.
Proof. unfold w_put. destruct (Nat.ltb_spec 0 (w_rem w)); [reflexivity|lia]. Qed.
Lemma w_many_ok u : forall w, w_ok w -> w_ok (w_many u w).
Proof. induction u as [|c u IH]; intros w H; [exact H|]. apply IH, w_put_ok, H. Qed.
Lemma w_many_out u : forall w, length u <= w_rem w -> w_out (w_many u w) = w_out w ++ u /\ w_rem (w_many u w) = w_rem w - length u.
Proof.
  induction u as [|c u IH]; intros w H; [cbn; rewrite app_nil_r; split; [reflexivity|lia]|]. cbn [length] in H.
  change (w_many (c :: u) w) with (w_many u (w_put c w)). destruct (IH (w_put c w)) as [I1 I2]; [rewrite w_put_rem; lia|].
  rewrite I1, I2, w_put_rem, (w_put_out c w) by lia. rewrite <- app_assoc. split; [reflexivity|cbn [length]; lia].
Qed.

(** * Small facts *)
Lemma address_none s : no_bracket s -> address_at s = None.
Proof.
  unfold address_at. destruct s as [|c s]; [reflexivity|]. cbn [at_ nth]. destruct (ceq c "["%char) eqn:Ec; [|reflexivity].
  apply ceq_eq in Ec. subst c. intros [].
Qed.
Lemma address_some a s : short a -> ~ In "]"%char a -> address_at (B "[" ++ a ++ B "]" ++ s) = Some (Some a, s).
Proof.
  intros [N L] H. unfold address_at. cbn [B list_ascii_of_string app at_ nth]. change (ceq "["%char "["%char) with true. cbv iota zeta. cbn [skipn].
  rewrite (strchr_plain "]"%char a s H), firstn_plain. change (match a ++ "]"%char :: s with [] => [] | _ :: l => skipn (length a) l end) with (skipn (S (length a)) (a ++ "]"%char :: s)).
  rewrite skipn_plain. destruct (Nat.ltb_spec 0 (length a)); [|destruct a; [contradiction|cbn in *; lia]].
  destruct (Nat.ltb_spec (length a) 1024); [reflexivity|lia].
Qed.
Definition addr (a : option str) (s : str) : option (option str * str) := match a with Some a => Some (Some a, s) | None => None end.
Lemma address_bracketed a s : fine_address a -> (a = None -> no_bracket s) -> address_at (bracketed a ++ s) = addr a s.
Proof.
  destruct a as [a|]; cbn [bracketed addr fine_address]; intros H N.
  - rewrite <- !app_assoc. apply address_some; tauto.
  - apply address_none. auto.
Qed.
Lemma address_bracketed_ws a s : fine_address a -> (a = None -> no_bracket_ws s) -> address_at (snd (span isspace (bracketed a ++ s))) = addr a s.
Proof.
  destruct a as [a|]; cbn [bracketed addr fine_address]; intros H N.
  - rewrite <- !app_assoc. replace (snd (span isspace (B "[" ++ a ++ B "]" ++ s))) with (B "[" ++ a ++ B "]" ++ s) by reflexivity. apply address_some; tauto.
  - cbn [app]. apply address_none. apply N. reflexivity.
Qed.
Lemma rest_addr a s : rest_of (addr a s) (bracketed a ++ s) = s.
Proof. destruct a; reflexivity. Qed.
Lemma brace_end f s : ~ In "}"%char f -> strstr (B "}}") (f ++ B "}}" ++ s) = Some (length f).
Proof.
  intros H. induction f as [|c f IH]; [reflexivity|]. apply nin_cons in H as [N H]. cbn [app]. cbn [strstr]. cbn [B list_ascii_of_string starts].
  rewrite (proj2 (ceq_neq "}"%char c)) by congruence. cbn [andb]. change ["}"%char; "}"%char] with (B "}}"). rewrite (IH H). reflexivity.
Qed.
Lemma skipn_two (a : str) c d r : skipn (length a + 2) (a ++ c :: d :: r) = r.
Proof. induction a as [|x a IH]; [reflexivity|exact IH]. Qed.
Lemma short_guard f : short f -> (length f =? 0) || (1024 <=? length f) = false.
Proof. intros [N L]. destruct f; [contradiction|]. cbn [length] in *. destruct (Nat.leb_spec 1024 (S (length f))); [lia|reflexivity]. Qed.
Lemma span_word f s : Forall (fun c => word_char c = true) f -> match s with [] => True | c :: _ => word_char c = false end ->
  span word_char (f ++ s) = (f, s).
Proof.
  intros H K. induction H as [|c f Hc H IH]; cbn [app span].
  - destruct s as [|c s]; [reflexivity|]. cbn [span]. rewrite K. reflexivity.
  - rewrite Hc, IH. reflexivity.
Qed.
Lemma written_pos i : 0 < length (written i).
Proof. destruct i; cbn; lia. Qed.

(** * One level *)
Section Level.
Variable E : env.
Variable rec : str -> option str -> option str -> result_.
Variable base : option str.
Notation loop_ := (loop E rec base).
Lemma include_inert start c r s : inert start (c :: r) -> include_at E rec base start false (c :: r ++ s) = No.
Proof.
  cbn [inert]. intros (N1 & N2 & N3 & _). unfold include_at.
  destruct start.
  - destruct (N3 eq_refl) as [N4 N5]. rewrite (proj2 (ceq_neq c "/"%char)) by congruence. cbn [andb].
    destruct (ceq c "{"%char) eqn:E1.
    + apply ceq_eq in E1. destruct (N2 E1) as (d & r' & -> & Nd). cbn [app at_ nth andb]. rewrite (proj2 (ceq_neq d "{"%char)) by congruence.
      subst c. reflexivity.
    + cbn [andb]. destruct (ceq c "<"%char) eqn:E2; [|reflexivity]. apply ceq_eq in E2. destruct (N5 E2) as (d & r' & -> & Nd).
      cbn [app at_ nth andb]. rewrite (proj2 (ceq_neq d "<"%char)) by congruence. reflexivity.
  - rewrite andb_false_r. cbn [andb].
    destruct (ceq c "{"%char) eqn:E1; [|reflexivity].
    apply ceq_eq in E1. destruct (N2 E1) as (d & r' & -> & Nd). cbn [app at_ nth andb]. rewrite (proj2 (ceq_neq d "{"%char)) by congruence. reflexivity.
Qed.
Lemma loop_plain u : forall start fuel w s, inert start u ->
  loop_ (length u + fuel) start false (u ++ s) w = loop_ fuel (after_ start u) false s (w_many u w).
Proof.
  induction u as [|c u IH]; intros start fuel w s H; [reflexivity|].
  pose proof (include_inert start c u s H) as K. destruct H as (N & _ & _ & H).
  cbn [length plus app loop]. rewrite (proj2 (ceq_neq c BT)) by congruence. cbv zeta. rewrite K. rewrite (IH (ceq c NL) fuel (w_put c w) s H), after_cons. reflexivity.
Qed.
Lemma loop_code u : forall start fuel w s, ~ In BT u ->
  loop_ (length u + S fuel) start true (u ++ BT :: s) w = loop_ fuel false false s (w_many (u ++ [BT]) w).
Proof.
  induction u as [|c u IH]; intros start fuel w s H.
  - cbn [length plus app loop]. change (ceq BT BT) with true. cbv iota zeta. cbn [negb]. unfold include_at.
    change (ceq BT "/"%char) with false. change (ceq BT "{"%char) with false. change (ceq BT "<"%char) with false. rewrite andb_false_r. cbn [andb]. reflexivity.
  - apply nin_cons in H as [N H]. cbn [length plus app loop]. rewrite (proj2 (ceq_neq c BT)) by congruence. cbv zeta.
    unfold include_at at 1. cbn [app]. rewrite (IH (ceq c NL) fuel (w_put c w) s H). reflexivity.
Qed.
Lemma loop_span u start fuel w s : ~ In BT u ->
  loop_ (length u + S (S fuel)) start false (BT :: u ++ BT :: s) w = loop_ fuel false false s (w_many ([BT] ++ u ++ [BT]) w).
Proof.
  intros H. replace (length u + S (S fuel)) with (S (length u + S fuel)) by lia. cbn [loop]. change (ceq BT BT) with true. cbv iota zeta. cbn [negb].
  unfold include_at at 1. change (ceq BT NL) with false. rewrite (loop_code u false fuel (w_put BT w) s H). reflexivity.
Qed.
Lemma loop_inc start fuel w c r x rest : c <> BT -> include_at E rec base start false (c :: r) = Yes (Some x) rest ->
  loop_ (S fuel) start false (c :: r) w = loop_ fuel false false rest (w_puts_lt x w).
Proof. intros N H. cbn [loop]. rewrite (proj2 (ceq_neq c BT)) by congruence. cbv zeta. rewrite H. reflexivity. Qed.

(** ** Addresses *)
Lemma cut_part a s content x : Part E a content x -> cut E (addr a s) content = Text x.
Proof. destruct a as [a|]; cbn [Part addr cut]; [auto|congruence]. Qed.

(** ** Files *)
Variable R : str -> option str -> str -> Prop.
Hypothesis sound : forall x b t, R x b t -> forall base' tb, transclude_base base' tb = b -> rec x base' tb = Done t.
Lemma home_base p content home : Home E p content home ->
  transclude_base (transclude_base (Some (get_directory p)) (tbase E content)) (tbase E content) = Some home.
Proof.
  intros H. destruct H as [H|t H|t H D].
  - rewrite H. reflexivity.
  - rewrite H. reflexivity.
  - rewrite H. destruct D as [-> |[u ->]]; reflexivity.
Qed.
Lemma nested_spec p content y home t rest : Home E p content home -> R y (Some home) t -> nested E rec p content y rest = Yes (Some t) rest.
Proof. intros H Ry. unfold nested. cbv zeta. rewrite (sound _ _ _ Ry _ _ (home_base _ _ _ H)). reflexivity. Qed.
Lemma as_text_spec p content x y home t rest : Tabled p x y -> Home E p content home -> R y (Some home) t ->
  as_text E rec p content x rest = Yes (Some t) rest.
Proof.
  intros T H Ry. unfold as_text. destruct T as [y Dt Et|y Dt Et|N1 N2].
  - rewrite Dt, Et. apply (nested_spec p content y home); assumption.
  - rewrite Dt, Et. apply (nested_spec p content y home); assumption.
  - destruct (detect p); try contradiction; apply (nested_spec p content x home); assumption.
Qed.
Lemma no_glob f : Forall (fun c => is_glob c = false) f -> resolve_wildcard E f base = Some (resolve_path f base).
Proof.
  clear sound R rec.
  intros H. unfold resolve_wildcard. cbv zeta. assert (K : existsb is_glob f = false).
  { induction H as [|c f Hc H IH]; [reflexivity|]. cbn [existsb]. rewrite Hc, IH. reflexivity. }
  rewrite K. destruct (strstr (B ".*") f) as [k|] eqn:Es; [|reflexivity].
  apply strstr_some in Es as (u & v & -> & _). rewrite !Forall_app in H. destruct H as (_ & H & _). inversion H; subst. inversion H3; subst. discriminate.
Qed.
Lemma means_spec start i x s : fine_include start i s -> Means E R base i x ->
  exists c r, written i ++ s = c :: r /\ c <> BT /\ include_at E rec base start false (c :: r) = Yes (Some x) s.
Proof.
  intros F H. destruct H as [f a content x y home t Hf Hp Ht Hh Hr|f a content x y home t Hf Hp Ht Hh Hr|f a content x Hf Hp
    |f content He Hf Hd|f content He Hf Hd|f content t He Hf Hd Ht|f content home t He Hf Hd Hh Hr]; cbn [fine_include] in F.
  - destruct F as (Fs & Fb & Fg & Fa & Fr). exists "{"%char, ("{"%char :: f ++ B "}}" ++ bracketed a ++ s). split; [unfold written; rewrite <- ?app_assoc; reflexivity|]. split; [discriminate|].
    unfold include_at. change (ceq "{"%char "/"%char) with false. change (ceq "{"%char "{"%char) with true. cbn [andb app at_ nth skipn].
    change (ceq "{"%char "{"%char) with true. cbv iota. unfold mmd_include. rewrite (brace_end f _ Fb), (short_guard f Fs).
    cbv zeta. rewrite firstn_plain. change (B "}}" ++ bracketed a ++ s) with ("}"%char :: "}"%char :: bracketed a ++ s). rewrite skipn_two.
    rewrite (address_bracketed a s Fa Fr), (no_glob f Fg), Hf, (cut_part a s content x Hp), rest_addr.
    apply (as_text_spec _ content x y home); assumption.
  - destruct F as (-> & Fs & Fb & Fa & Fr). exists "<"%char, ("<"%char :: "["%char :: f ++ B "]" ++ bracketed a ++ s). split; [unfold written; rewrite <- ?app_assoc; reflexivity|]. split; [discriminate|].
    unfold include_at. change (ceq "<"%char "/"%char) with false. change (ceq "<"%char "{"%char) with false. cbn [andb app at_ nth skipn].
    change (ceq "<"%char "<"%char) with true. cbv iota. unfold marked_include. cbn [at_ nth]. cbv zeta. change (skipn 1 ("["%char :: f ++ B "]" ++ bracketed a ++ s)) with (f ++ B "]" ++ bracketed a ++ s).
    change (B "]" ++ bracketed a ++ s) with ("]"%char :: bracketed a ++ s). rewrite (strchr_plain "]"%char f _ Fb), (short_guard f Fs).
    cbv zeta. rewrite firstn_plain, skipn_plain. rewrite (address_bracketed_ws a s Fa Fr), Hf, (cut_part a s content x Hp), rest_addr.
    change (ceq "]"%char "]"%char) with true. cbv iota. apply (as_text_spec _ content x y home); assumption.
  - destruct F as (-> & Fs & Fb & Fa & Fr & Fl). exists "<"%char, ("<"%char :: "("%char :: f ++ B ")" ++ bracketed a ++ s). split; [unfold written; rewrite <- ?app_assoc; reflexivity|]. split; [discriminate|].
    unfold include_at. change (ceq "<"%char "/"%char) with false. change (ceq "<"%char "{"%char) with false. cbn [andb app at_ nth skipn].
    change (ceq "<"%char "<"%char) with true. cbv iota. unfold marked_include. cbn [at_ nth]. cbv zeta. change (skipn 1 ("("%char :: f ++ B ")" ++ bracketed a ++ s)) with (f ++ B ")" ++ bracketed a ++ s).
    change (B ")" ++ bracketed a ++ s) with (")"%char :: bracketed a ++ s). rewrite (strchr_plain ")"%char f _ Fb), (short_guard f Fs).
    cbv zeta. rewrite firstn_plain, skipn_plain. rewrite (address_bracketed_ws a s Fa Fr), Hf, (cut_part a s content x Hp), rest_addr.
    change (ceq ")"%char "]"%char) with false. change (ceq ")"%char ")"%char) with true. cbv iota. unfold fence_of, ticks.
    rewrite firstn_all2 by (rewrite !app_length, repeat_length; cbn [length]; lia). rewrite <- !app_assoc. reflexivity.
  - destruct F as (-> & Fs & Fw & Fr). exists "/"%char, (f ++ s). split; [unfold written; rewrite <- ?app_assoc; reflexivity|]. split; [discriminate|].
    unfold include_at. change (ceq "/"%char "/"%char && true) with true. cbv iota. unfold ia_include.
    rewrite (span_word f s Fw Fr), (short_guard f Fs). cbv zeta. rewrite He, Hf, Hd. reflexivity.
  - destruct F as (-> & Fs & Fw & Fr). exists "/"%char, (f ++ s). split; [unfold written; rewrite <- ?app_assoc; reflexivity|]. split; [discriminate|].
    unfold include_at. change (ceq "/"%char "/"%char && true) with true. cbv iota. unfold ia_include.
    rewrite (span_word f s Fw Fr), (short_guard f Fs). cbv zeta. rewrite He, Hf, Hd. reflexivity.
  - destruct F as (-> & Fs & Fw & Fr). exists "/"%char, (f ++ s). split; [unfold written; rewrite <- ?app_assoc; reflexivity|]. split; [discriminate|].
    unfold include_at. change (ceq "/"%char "/"%char && true) with true. cbv iota. unfold ia_include.
    rewrite (span_word f s Fw Fr), (short_guard f Fs). cbv zeta. rewrite He, Hf.
    destruct Ht as [t Dt Et|t Dt Et|N1 N2]; [rewrite Dt, Et; reflexivity|rewrite Dt, Et; reflexivity|destruct Hd; contradiction].
  - destruct F as (-> & Fs & Fw & Fr). exists "/"%char, (f ++ s). split; [unfold written; rewrite <- ?app_assoc; reflexivity|]. split; [discriminate|].
    unfold include_at. change (ceq "/"%char "/"%char && true) with true. cbv iota. unfold ia_include.
    rewrite (span_word f s Fw Fr), (short_guard f Fs). cbv zeta. rewrite He, Hf.
    destruct (detect (resolve_path f base)); try (destruct Hd as [Hd|[Hd|[Hd|[]]]]; discriminate); apply (nested_spec _ content content home); assumption.
Qed.
Lemma loop_segments l t : Result E R base l t -> forall start fuel w, fine start l -> length (source l) < fuel -> w_ok w -> length t < w_rem w ->
  loop_ fuel start false (source l) w = Done (w_out w ++ t).
Proof.
  induction 1 as [|u l t H IH|u l t H IH|i l x t Hm H IH]; intros start fuel w F L W Lt.
  - destruct fuel as [|fuel]; [lia|]. cbn [source map concat loop]. cbv zeta. rewrite (proj2 (w_term_safe w W)) by lia. unfold w_term. cbn [w_out]. rewrite app_nil_r. reflexivity.
  - cbn [fine] in F. destruct F as [F1 F2]. unfold source in *. cbn [map concat source1] in *. rewrite app_length in L, Lt.
    replace fuel with (length u + (fuel - length u)) by lia. rewrite (loop_plain u start _ w _ F1).
    destruct (w_many_out u w) as [O1 O2]; [lia|].
    rewrite (IH (after_ start u)); [rewrite O1, <- app_assoc; reflexivity|exact F2|lia|apply w_many_ok, W|rewrite O2; lia].
  - cbn [fine] in F. destruct F as [F1 F2]. unfold source in *. cbn [map concat source1] in *. rewrite !app_length in L, Lt. cbn [length] in L, Lt.
    replace fuel with (length u + S (S (fuel - length u - 2))) by lia. rewrite <- !app_assoc. cbn [app]. rewrite (loop_span u start _ w _ F1).
    destruct (w_many_out ([BT] ++ u ++ [BT]) w) as [O1 O2]; [rewrite !app_length; cbn [length]; lia|].
    rewrite (IH false); [rewrite O1, <- !app_assoc; reflexivity|exact F2|lia|apply w_many_ok, W|rewrite O2, !app_length; cbn [length]; lia].
  - cbn [fine] in F. destruct F as [F1 F2]. unfold source in *. cbn [map concat source1] in *. rewrite app_length in L, Lt.
    destruct (means_spec start i x _ F1 Hm) as (c & r & Ew & Nc & Ei). rewrite Ew. destruct fuel as [|fuel]; [lia|].
    rewrite (loop_inc start fuel w c r x _ Nc Ei). pose proof (written_pos i).
    rewrite (IH false); [rewrite w_puts_lt_out by lia; rewrite <- app_assoc; reflexivity|exact F2|lia|apply w_puts_lt_ok, W|].
    unfold w_puts_lt. destruct (Nat.ltb_spec (length x) (w_rem w)); [|lia]. unfold w_set_rem. cbn [w_rem]. lia.
Qed.
End Level.

Lemma expands_process E levels : forall text base tb t, Expands E levels text (transclude_base base tb) t -> process E levels text base tb = Done t.
Proof.
  induction levels as [|levels IH]; intros text base tb t H; [cbn in H; subst; reflexivity|].
  cbn [Expands] in H. destruct H as (l & -> & F & N & Rs & L). cbn [process]. rewrite (normalized_id _ N). cbv zeta.
  rewrite (loop_segments E (process E levels) (transclude_base base tb) (fun x b => Expands E levels x b)
    ltac:(intros x b t' Hx base' tb' <-; apply IH; exact Hx) l t Rs true _ _ F); [reflexivity|lia|apply w_ok_new|exact L].
Qed.

(** * Text without includes *)
Section Quiet.
Variable E : env.
Variable rec : str -> option str -> option str -> result_.
Variable base : option str.
Lemma include_quiet start code c r : quiet start (c :: r) -> include_at E rec base start code (c :: r) = No.
Proof.
  cbn [quiet]. intros (N1 & N2 & _). unfold include_at. destruct code; [reflexivity|].
  assert (K1 : ceq c "{"%char && ceq (at_ r 0) "{"%char = false).
  { destruct (ceq c "{"%char) eqn:E1; [|reflexivity]. destruct (ceq (at_ r 0) "{"%char) eqn:E2; [|reflexivity].
    apply ceq_eq in E1, E2. destruct (N1 (conj E1 E2)). }
  rewrite K1. destruct start; cbn [andb].
  - destruct (N2 eq_refl) as [N3 N4]. rewrite (proj2 (ceq_neq c "/"%char)) by congruence. cbn [andb].
    destruct (ceq c "<"%char) eqn:E1; [|reflexivity]. destruct (ceq (at_ r 0) "<"%char) eqn:E2; [|reflexivity].
    apply ceq_eq in E1, E2. destruct (N4 (conj E1 E2)).
  - rewrite andb_false_r. reflexivity.
Qed.
Lemma loop_quiet u : forall start code fuel w, length u < fuel -> quiet start u -> w_ok w -> length u < w_rem w ->
  loop E rec base fuel start code u w = Done (w_out w ++ u).
Proof.
  induction u as [|c u IH]; intros start code fuel w L H W Lt; (destruct fuel as [|fuel]; [cbn in L; lia|]).
  - cbn [loop]. cbv zeta. rewrite (proj2 (w_term_safe w W)) by (cbn in Lt; lia). unfold w_term. cbn [w_out]. rewrite app_nil_r. reflexivity.
  - cbn [loop]. cbv zeta. rewrite (include_quiet start _ c u H). destruct H as (_ & _ & H). cbn [length] in *.
    rewrite IH; [rewrite w_put_out by lia; rewrite <- app_assoc; reflexivity|lia|exact H|apply w_put_ok, W|rewrite w_put_rem; lia].
Qed.
Lemma loop_ticks m : forall start code fuel w s, loop E rec base (m + fuel) start code (ticks m ++ s) w =
  loop E rec base fuel (match m with 0 => start | _ => false end) (xorb code (Nat.odd m)) s (w_many (ticks m) w).
Proof.
  induction m as [|m IH]; intros start code fuel w s; [cbn; rewrite xorb_false_r; reflexivity|].
  unfold ticks. cbn [repeat app plus loop]. change (ceq BT BT) with true. cbv iota zeta.
  assert (K : include_at E rec base start (negb code) (BT :: repeat BT m ++ s) = No).
  { unfold include_at. destruct (negb code); [reflexivity|]. change (ceq BT "/"%char) with false. change (ceq BT "{"%char) with false. change (ceq BT "<"%char) with false.
    rewrite andb_false_r. reflexivity. }
  rewrite K. change (ceq BT NL) with false. change (repeat BT m) with (ticks m). rewrite IH.
  f_equal; [destruct m; reflexivity|]. rewrite Nat.odd_succ, <- Nat.negb_odd. destruct code, (Nat.odd m); reflexivity.
Qed.
Lemma loop_in_code u : forall start fuel w s, ~ In BT u -> loop E rec base (length u + fuel) start true (u ++ s) w =
  loop E rec base fuel (after_ start u) true s (w_many u w).
Proof.
  induction u as [|c u IH]; intros start fuel w s H; [reflexivity|]. apply nin_cons in H as [N H].
  cbn [length plus app loop]. rewrite (proj2 (ceq_neq c BT)) by congruence. cbv zeta. unfold include_at at 1. rewrite (IH _ _ _ _ H), after_cons. reflexivity.
Qed.
End Quiet.
Lemma pow20 : 2000 < 2 ^ 20.
Proof. apply Nat.lt_trans with (2 ^ 11); [apply Nat.ltb_lt; vm_compute; reflexivity|]. apply Nat.pow_lt_mono_r; [apply Nat.ltb_lt; reflexivity|apply Nat.ltb_lt; vm_compute; reflexivity]. Qed.
Lemma cap_big n : n < Nat.max (n * 10) (2 ^ 20).
Proof. pose proof pow20. lia. Qed.
Lemma process_quiet E levels text base tb : quiet true text -> no_even_fence text -> process E levels text base tb = Done text.
Proof.
  intros H N. destruct levels as [|levels]; [reflexivity|]. cbn [process]. rewrite (normalized_id _ N). cbv zeta.
  rewrite loop_quiet; [reflexivity|lia|exact H|apply w_ok_new|cbn [w_rem w_new]; apply cap_big].
Qed.

(** * Fenced blocks *)
Lemma normalize_plain u : forall fuel start fence s, ~ In BT u ->
  normalize (length u + fuel) start fence (u ++ s) = u ++ normalize fuel (after_ start u) fence s.
Proof.
  induction u as [|c u IH]; intros fuel start fence s H; [reflexivity|]. apply nin_cons in H as [N H].
  cbn [length plus app normalize]. rewrite (proj2 (ceq_neq c BT)) by congruence. rewrite andb_false_r, (IH _ _ _ _ H), after_cons. reflexivity.
Qed.
Lemma span_repeat n s : at_ s 0 <> BT -> span (ceq BT) (repeat BT n ++ s) = (repeat BT n, s).
Proof.
  intros H. induction n as [|n IH]; cbn [repeat app].
  - destruct s as [|c s]; [reflexivity|]. cbn [span]. cbn [at_ nth] in H. rewrite (proj2 (ceq_neq BT c)) by congruence. reflexivity.
  - cbn [span]. change (ceq BT BT) with true. cbv iota. rewrite IH. reflexivity.
Qed.
Lemma span_line_nl l s : ~ In NL l -> ~ In CR l -> span in_line (l ++ NL :: s) = (l, NL :: s).
Proof.
  induction l as [|c l IH]; intros H1 H2; [reflexivity|]. apply nin_cons in H1 as [N1 H1]. apply nin_cons in H2 as [N2 H2].
  cbn [app span]. unfold in_line at 1. rewrite (proj2 (ceq_neq c NL)), (proj2 (ceq_neq c CR)) by congruence. cbn [negb andb]. rewrite (IH H1 H2). reflexivity.
Qed.
Definition odd_up (n : nat) : nat := if Nat.even n then S n else n.
Lemma odd_up_odd n : Nat.odd (odd_up n) = true.
Proof. unfold odd_up. destruct (Nat.even n) eqn:H; [rewrite Nat.odd_succ; exact H|unfold Nat.odd; rewrite H; reflexivity]. Qed.
Lemma odd_up_bound n : n <= odd_up n <= S n.
Proof. unfold odd_up. destruct (Nat.even n); lia. Qed.
Notation block := code_block.
Lemma block_length n info body : length (block n info body) = n + length info + length body + n + 3.
Proof. unfold code_block. rewrite !app_length, !repeat_length. cbn [length]. lia. Qed.
Lemma no_bt_at info s : ~ In BT info -> at_ (info ++ NL :: s) 0 <> BT.
Proof. destruct info as [|c i]; intros H; cbn; [discriminate|]. apply nin_cons in H as [N _]. congruence. Qed.
Lemma normalize_fence n line rest fuel fence : 3 <= n -> at_ (line ++ NL :: rest) 0 <> BT -> ~ In NL line -> ~ In CR line ->
  normalize (S fuel) true fence (repeat BT n ++ line ++ NL :: rest) =
  let '(m, fence') := match fence with Some (o, w) => if n =? o then (w, None) else (n, fence) | None => (odd_up n, Some (n, odd_up n)) end in
  repeat BT m ++ line ++ normalize fuel false fence' (NL :: rest).
Proof.
  intros L Hi Hn Hc. pose proof (span_repeat n _ Hi) as Sp. destruct n as [|n]; [lia|]. cbn [normalize repeat app] in *.
  change (true && ceq BT BT) with true. cbv iota. rewrite Sp. cbn [length]. rewrite repeat_length.
  destruct (Nat.leb_spec 3 (S n)); [|lia]. rewrite (span_line_nl line rest Hn Hc). cbv zeta. fold (odd_up (S n)).
  destruct fence as [[o w]|]; [destruct (S n =? o); reflexivity|reflexivity].
Qed.
Lemma normalize_block n info body v fuel : 3 <= n -> ~ In BT info -> ~ In NL info -> ~ In CR info -> ~ In BT body -> ~ In BT v ->
  length (block n info body ++ v) < fuel -> normalize fuel true None (block n info body ++ v) = block (odd_up n) info body ++ v.
Proof.
  intros L Hi Hn Hc Hb Hv Lf. rewrite app_length, block_length in Lf.
  assert (Hu : ~ In BT (NL :: body ++ [NL])).
  { intros [K|K]; [discriminate|]. rewrite in_app_iff in K. destruct K as [K|[K|[]]]; [exact (Hb K)|discriminate]. }
  assert (Eu : after_ false (NL :: body ++ [NL]) = true) by (rewrite after_cons, after_app; reflexivity).
  assert (Lu : length (NL :: body ++ [NL]) = length body + 2) by (cbn [length]; rewrite app_length; cbn [length]; lia).
  set (u := NL :: body ++ [NL]) in *.
  assert (Hw : ~ In BT (NL :: v)) by (intros [K|K]; [discriminate|exact (Hv K)]). assert (Lw : length (NL :: v) = S (length v)) by reflexivity.
  assert (Eb : forall k, block k info body ++ v = repeat BT k ++ info ++ u ++ repeat BT k ++ NL :: v).
  { intros k. unfold code_block, u. rewrite <- !app_assoc. cbn [app]. rewrite <- !app_assoc. reflexivity. }
  rewrite !Eb. assert (Nu : exists z, u ++ repeat BT n ++ NL :: v = NL :: z) by (eexists; reflexivity). destruct Nu as [z Ez]. rewrite Ez.
  destruct fuel as [|fuel]; [lia|]. rewrite normalize_fence; [|exact L|apply no_bt_at; exact Hi|exact Hn|exact Hc]. cbv iota beta.
  f_equal. f_equal. rewrite <- Ez. replace fuel with (length u + (fuel - length u)) by lia. rewrite normalize_plain by exact Hu. f_equal. rewrite Eu.
  destruct (fuel - length u) as [|f1] eqn:Ef; [lia|]. change (repeat BT n ++ NL :: v) with (repeat BT n ++ [] ++ NL :: v).
  rewrite normalize_fence; [|exact L|cbn; discriminate|intros []|intros []]. rewrite Nat.eqb_refl. f_equal. cbn [app].
  assert (Ev : forall f, S (length v) < f -> normalize f false None (NL :: v) = NL :: v).
  { intros f Lf'. rewrite <- (app_nil_r (NL :: v)) at 1. replace f with (length (NL :: v) + (f - length (NL :: v))) by lia.
    rewrite normalize_plain by exact Hw. destruct (f - length (NL :: v)); cbn [normalize]; apply app_nil_r. }
  apply Ev. lia.
Qed.
Lemma loop_end E rec base fuel start code w : w_ok w -> 0 < w_rem w -> loop E rec base (S fuel) start code [] w = Done (w_out w).
Proof. intros W L. cbn [loop]. cbv zeta. rewrite (proj2 (w_term_safe w W)) by exact L. reflexivity. Qed.
Lemma loop_plain_end E rec base u start fuel w : inert start u -> w_ok w -> length u < w_rem w ->
  loop E rec base (length u + S fuel) start false u w = Done (w_out w ++ u).
Proof.
  intros H W L. pose proof (loop_plain E rec base u start (S fuel) w [] H) as K. rewrite app_nil_r in K. rewrite K.
  destruct (w_many_out u w) as [O1 O2]; [lia|]. rewrite loop_end; [rewrite O1; reflexivity|apply w_many_ok, W|rewrite O2; lia].
Qed.
Lemma process_block E levels n info body v base tb :
  3 <= n -> ~ In BT info -> ~ In NL info -> ~ In CR info -> ~ In BT body -> ~ In BT v -> inert true v ->
  process E (S levels) (block n info body ++ v) base tb = Done (block (odd_up n) info body ++ v).
Proof.
  intros L Hi Hn Hc Hb Hv Iv. cbn [process]. set (t := block (odd_up n) info body ++ v).
  assert (En : normalized (block n info body ++ v) = Some t).
  { unfold normalized. cbv zeta. rewrite (normalize_block n info body v _ L Hi Hn Hc Hb Hv) by lia. fold t. unfold t.
    rewrite !app_length, !block_length. pose proof (odd_up_bound n).
    destruct (Nat.ltb_spec (odd_up n + length info + length body + odd_up n + 3 + length v) ((n + length info + length body + n + 3 + length v) * 2 + 1)); [reflexivity|lia]. }
  rewrite En. cbv zeta. pose proof (cap_big (length t)) as C. set (cap := Nat.max (length t * 10) (2 ^ 20)) in *. clearbody cap.
  set (w := w_new cap cap). assert (W : w_ok w) by apply w_ok_new. assert (Wr : w_rem w = cap) by reflexivity. assert (Wo : w_out w = []) by reflexivity. clearbody w.
  set (m := odd_up n) in *. set (u := info ++ NL :: body ++ [NL]).
  assert (Hu : ~ In BT u).
  { unfold u. rewrite in_app_iff. intros [K|[K|K]]; [exact (Hi K)|discriminate|]. rewrite in_app_iff in K. destruct K as [K|[K|[]]]; [exact (Hb K)|discriminate]. }
  assert (Et : t = ticks m ++ u ++ ticks m ++ (NL :: v)).
  { unfold t, block, u, ticks. rewrite <- !app_assoc. cbn [app]. rewrite <- !app_assoc. reflexivity. }
  assert (Lt : length t = m + (length u + (m + (S (length v))))) by (rewrite Et; unfold ticks; rewrite !app_length, !repeat_length; reflexivity).
  clearbody t. rewrite Lt. replace (S (m + (length u + (m + S (length v))))) with (m + (length u + (m + (length (NL :: v) + 1)))) by (cbn [length]; lia).
  pose proof (odd_up_odd n) as Om. fold m in Om. rewrite Et at 1.
  rewrite loop_ticks, Om. cbn [xorb]. rewrite loop_in_code by exact Hu. rewrite loop_ticks, Om. cbn [xorb].
  assert (Mp : m <> 0) by (unfold m; pose proof (odd_up_bound n); lia).
  replace (match m with 0 => after_ (match m with 0 => true | _ => false end) u | _ => false end) with false by (destruct m; [contradiction|reflexivity]).
  rewrite <- (app_nil_r (NL :: v)) at 2. rewrite loop_plain. 2: { cbn [inert]. split; [discriminate|]. split; [discriminate|]. split; [discriminate|]. exact Iv. }
  rewrite <- !w_many_app, <- ?app_assoc, <- Et. destruct (w_many_out t w) as [O1 O2]; [lia|].
  rewrite loop_end; [rewrite O1, Wo; reflexivity|apply w_many_ok, W|rewrite O2; lia].
Qed.

(** * Files that are not there *)
Lemma inert_app a : forall start b, inert start a -> inert (after_ start a) b -> inert start (a ++ b).
Proof.
  induction a as [|c a IH]; intros start b Ha Hb; [exact Hb|]. destruct Ha as (H1 & H2 & H3 & H4). rewrite after_cons in Hb. cbn [app inert].
  split; [exact H1|]. split; [|split; [|apply IH; assumption]].
  - intros Ec. destruct (H2 Ec) as (d & r & -> & N). exists d, (r ++ b). auto.
  - intros Es. destruct (H3 Es) as [N1 N2]. split; [exact N1|]. intros Ec. destruct (N2 Ec) as (d & r & -> & N). exists d, (r ++ b). auto.
Qed.
Lemma inert_name f : Forall name_char f -> inert false f /\ after_ false f = false.
Proof.
  induction 1 as [|c f (H1 & H2 & H3) H [IH1 IH2]]; [split; [exact I|reflexivity]|].
  rewrite after_cons. cbn [inert]. rewrite (proj2 (ceq_neq c NL)) by congruence. split; [|exact IH2].
  split; [exact H1|]. split; [congruence|]. split; [discriminate|exact IH1].
Qed.
Lemma loop_skip E rec base start fuel c r w : c <> BT -> include_at E rec base start false (c :: r) = No ->
  loop E rec base (S fuel) start false (c :: r) w = loop E rec base fuel (ceq c NL) false r (w_put c w).
Proof. intros N H. cbn [loop]. rewrite (proj2 (ceq_neq c BT)) by congruence. cbv zeta. rewrite H. reflexivity. Qed.
(** A step that copies, between inert texts. *)
Lemma process_one E levels u c v base tb : no_even_fence (u ++ c :: v) -> inert true u -> c <> BT -> c <> NL ->
  include_at E (process E levels) (transclude_base base tb) (after_ true u) false (c :: v) = No -> inert false v ->
  process E (S levels) (u ++ c :: v) base tb = Done (u ++ c :: v).
Proof.
  intros N Iu Nc Nl H Iv. cbn [process]. rewrite (normalized_id _ N). cbv zeta. pose proof (cap_big (length (u ++ c :: v))) as C.
  set (cap := Nat.max (length (u ++ c :: v) * 10) (2 ^ 20)) in *. clearbody cap.
  set (w := w_new cap cap). assert (W : w_ok w) by apply w_ok_new. assert (Wr : w_rem w = cap) by reflexivity. assert (Wo : w_out w = []) by reflexivity. clearbody w.
  rewrite app_length in *. cbn [length] in *. replace (S (length u + S (length v))) with (length u + (S (length v + 1))) by lia.
  rewrite (loop_plain E (process E levels) (transclude_base base tb) u true _ w (c :: v) Iu), loop_skip; [|exact Nc|exact H].
  rewrite (proj2 (ceq_neq c NL)) by congruence. rewrite <- (app_nil_r v) at 2. rewrite loop_plain by exact Iv.
  change (w_put c (w_many u w)) with (w_many [c] (w_many u w)). rewrite <- !w_many_app, <- ?app_assoc. cbn [app].
  destruct (w_many_out (u ++ c :: v) w) as [O1 O2]; [rewrite app_length; cbn [length]; lia|].
  rewrite loop_end; [rewrite O1, Wo; reflexivity|apply w_many_ok, W|rewrite O2, app_length; cbn [length]; lia].
Qed.
Lemma fence_free s : ~ In BT s -> no_even_fence s.
Proof.
  intros H a n b E _ _. destruct n as [|n]; [left; lia|]. exfalso. apply H. rewrite E. apply in_or_app. right. left. reflexivity.
Qed.
Lemma inert_no_bt u : forall start, inert start u -> ~ In BT u.
Proof. induction u as [|c u IH]; intros start H; [intros []|]. destruct H as (H1 & _ & _ & H2). intros [K|K]; [congruence|exact (IH _ H2 K)]. Qed.
Lemma mmd_missing E levels u f v base tb : inert true u -> short f -> Forall name_char f -> ~ In "}"%char f ->
  Forall (fun c => is_glob c = false) f -> inert false v -> file E (resolve_path f (transclude_base base tb)) = None ->
  process E (S levels) (u ++ B "{{" ++ f ++ B "}}" ++ v) base tb = Done (u ++ B "{{" ++ f ++ B "}}" ++ v).
Proof.
  intros Iu Fs Fn Fb Fg Iv Hf.
  assert (Ir : inert false ("{"%char :: f ++ B "}}" ++ v)).
  { cbn [inert]. split; [discriminate|]. split; [|split; [discriminate|]].
    - intros _. destruct f as [|d f']; [destruct Fs; contradiction|]. exists d, (f' ++ B "}}" ++ v). split; [reflexivity|]. inversion Fn as [|? ? (_ & _ & Hd)]. exact Hd.
    - change (ceq "{"%char NL) with false. destruct (inert_name f Fn) as [I1 I2]. apply inert_app; [exact I1|]. rewrite I2.
      apply inert_app; [|exact Iv]. cbn. repeat split; try discriminate. }
  change (B "{{" ++ f ++ B "}}" ++ v) with ("{"%char :: "{"%char :: f ++ B "}}" ++ v). apply process_one; [|exact Iu|discriminate|discriminate| |exact Ir].
  - apply fence_free. rewrite in_app_iff. intros [K|[K|K]]; [exact (inert_no_bt _ _ Iu K)|discriminate|exact (inert_no_bt _ _ Ir K)].
  - unfold include_at. change (ceq "{"%char "/"%char) with false. change (ceq "{"%char "{"%char) with true. cbn [andb at_ nth].
    change (ceq "{"%char "{"%char) with true. cbv iota. change (skipn 1 ("{"%char :: f ++ B "}}" ++ v)) with (f ++ B "}}" ++ v).
    unfold mmd_include. rewrite (brace_end f v Fb), (short_guard f Fs). cbv zeta. rewrite firstn_plain, (no_glob E _ f Fg), Hf. reflexivity.
Qed.
Lemma ia_missing E levels u f v base tb : inert true u -> after_ true u = true -> short f -> Forall name_char f ->
  Forall (fun c => word_char c = true) f -> match v with [] => True | c :: _ => word_char c = false end -> inert false v ->
  exists_ E (resolve_path f (transclude_base base tb)) = false ->
  process E (S levels) (u ++ B "/" ++ f ++ v) base tb = Done (u ++ B "/" ++ f ++ v).
Proof.
  intros Iu Su Fs Fn Fw Hv Iv Hf. destruct (inert_name f Fn) as [I1 I2].
  assert (Ir : inert false (f ++ v)) by (apply inert_app; [exact I1|rewrite I2; exact Iv]).
  change (B "/" ++ f ++ v) with ("/"%char :: f ++ v). apply process_one; [|exact Iu|discriminate|discriminate| |exact Ir].
  - apply fence_free. rewrite in_app_iff. intros [K|[K|K]]; [exact (inert_no_bt _ _ Iu K)|discriminate|exact (inert_no_bt _ _ Ir K)].
  - rewrite Su. unfold include_at. change (ceq "/"%char "/"%char && true) with true. cbv iota. unfold ia_include.
    rewrite (span_word f v Fw Hv), (short_guard f Fs). cbv zeta. rewrite Hf. reflexivity.
Qed.
(** A Marked include at the start, before inert text. *)
Lemma marked_gen E levels g v base tb x : 1 < length g -> ~ In BT g -> inert false v ->
  marked_include E (process E levels) (transclude_base base tb) (g ++ v) = Yes x v ->
  length (match x with Some t => t | None => [] end) < 2 ^ 20 - length v ->
  process E (S levels) (B "<<" ++ g ++ v) base tb = Done (match x with Some t => t ++ v | None => v end).
Proof.
  intros Lg Ft Iv H Lx. cbn [process].
  assert (N : no_even_fence (B "<<" ++ g ++ v)).
  { apply fence_free. rewrite !in_app_iff. intros [K|[K|K]]; [cbn in K; intuition discriminate|exact (Ft K)|exact (inert_no_bt _ _ Iv K)]. }
  rewrite (normalized_id _ N). cbv zeta. set (n := length (B "<<" ++ g ++ v)).
  assert (Ln : length v + 3 < n) by (unfold n; rewrite !app_length; cbn; lia).
  set (cap := Nat.max (n * 10) (2 ^ 20)). assert (C1 : n * 10 <= cap) by (unfold cap; lia). assert (C2 : 2 ^ 20 <= cap) by (unfold cap; lia). clearbody cap n.
  change (B "<<" ++ g ++ v) with ("<"%char :: "<"%char :: g ++ v). cbn [loop].
  change (ceq "<"%char BT) with false. cbv iota zeta. unfold include_at. change (ceq "<"%char "/"%char) with false. change (ceq "<"%char "{"%char) with false.
  cbn [andb at_ nth]. change (ceq "<"%char "<"%char) with true. cbv iota. change (skipn 1 ("<"%char :: g ++ v)) with (g ++ v).
  rewrite H. cbn [andb]. cbv iota. set (w := match x with Some t => w_puts_lt t (w_new cap cap) | None => w_new cap cap end).
  assert (W : w_ok w /\ w_out w = match x with Some t => t | None => [] end /\ length v < w_rem w).
  { unfold w. destruct x as [t|]; cbn [length] in Lx.
    - split; [apply w_puts_lt_ok, w_ok_new|]. rewrite w_puts_lt_out by (cbn [w_rem w_new]; lia). split; [reflexivity|].
      unfold w_puts_lt. cbn [w_rem w_new]. destruct (Nat.ltb_spec (length t) cap); [|lia]. cbn [w_set_rem w_rem]. lia.
    - split; [apply w_ok_new|]. split; [reflexivity|]. cbn [w_rem w_new]. lia. }
  destruct W as (W1 & W2 & W3). clearbody w. replace n with (length v + S (n - length v - 1)) by lia.
  rewrite loop_plain_end by assumption. rewrite W2. destruct x; reflexivity.
Qed.
Lemma marked_start E levels f v base tb x : short f -> ~ In BT f -> ~ In "]"%char f -> inert false v -> no_bracket_ws v ->
  marked_include E (process E levels) (transclude_base base tb) ("["%char :: f ++ B "]" ++ v) = Yes x v ->
  length (match x with Some t => t | None => [] end) < 2 ^ 20 - length v ->
  process E (S levels) (B "<<[" ++ f ++ B "]" ++ v) base tb = Done (match x with Some t => t ++ v | None => v end).
Proof.
  intros Fs Ft Fb Iv Nv H Lx. pose proof (marked_gen E levels (B "[" ++ f ++ B "]") v base tb x) as K.
  rewrite <- !app_assoc in K. apply K; [rewrite !app_length; cbn; lia| |exact Iv|exact H|exact Lx].
  rewrite !in_app_iff. intros [Q|[Q|Q]]; [cbn in Q; intuition discriminate|exact (Ft Q)|cbn in Q; intuition discriminate].
Qed.
Lemma marked_missing E levels f v base tb : short f -> ~ In BT f -> ~ In "]"%char f -> inert false v -> no_bracket_ws v -> length v < 2 ^ 20 ->
  file E (resolve_path f (transclude_base base tb)) = None ->
  process E (S levels) (B "<<[" ++ f ++ B "]" ++ v) base tb = Done v.
Proof.
  intros Fs Ft Fb Iv Nv Lv Hf. apply (marked_start E levels f v base tb None Fs Ft Fb Iv Nv); [|cbn [length]; lia].
  unfold marked_include. cbn [at_ nth]. cbv zeta. change (skipn 1 ("["%char :: f ++ B "]" ++ v)) with (f ++ B "]" ++ v).
  change (B "]" ++ v) with ("]"%char :: v). rewrite (strchr_plain "]"%char f _ Fb), (short_guard f Fs). rewrite firstn_plain, skipn_plain, Hf.
  rewrite (address_none _ Nv). reflexivity.
Qed.

(** * Every run ends *)
Lemma span_len (p : ascii -> bool) s a b : span p s = (a, b) -> length b <= length s.
Proof. intros H. apply span_app in H. rewrite H, app_length. lia. Qed.
Lemma snd_span_len (p : ascii -> bool) s : length (snd (span p s)) <= length s.
Proof. destruct (span p s) as [a b] eqn:H. exact (span_len _ _ _ _ H). Qed.
Lemma address_len s x r : address_at s = Some (x, r) -> length r <= length s.
Proof.
  unfold address_at. destruct (ceq _ _); [|discriminate]. destruct (strchr _ _) as [k|]; [|discriminate]. intros H.
  apply (f_equal (fun o => match o with Some (_, q) => q | None => [] end)) in H. subst r. rewrite !skipn_length. lia.
Qed.
Lemma rest_len a after s : address_at s = a -> length s <= length after -> length (rest_of a after) <= length after.
Proof. intros E H. destruct a as [[x r]|]; cbn [rest_of]; [|lia]. apply address_len in E. lia. Qed.
Lemma nested_yes E rec p c x rest t rest' : nested E rec p c x rest = Yes t rest' -> rest' = rest.
Proof. unfold nested. cbv zeta. destruct (rec _ _ _); intros H; try discriminate. injection H. auto. Qed.
Lemma as_text_yes E rec p c x rest t rest' : as_text E rec p c x rest = Yes t rest' -> rest' = rest.
Proof.
  unfold as_text. destruct (detect p); try apply nested_yes; destruct (csv_to_table _ _); try apply nested_yes; discriminate.
Qed.
Lemma include_shorter E rec base start code s t rest : include_at E rec base start code s = Yes t rest -> length rest < length s.
Proof.
  unfold include_at. destruct code; [discriminate|]. destruct s as [|c r]; [discriminate|].
  destruct (ceq c "/"%char && start).
  { unfold ia_include. destruct (span word_char r) as [f rst] eqn:Es. apply span_len in Es. destruct (_ || _); [discriminate|]. cbv zeta.
    destruct (exists_ E _); [|discriminate]. destruct (file E _) as [content|]; [|discriminate].
    intros H. enough (rest = rst) by (subst; cbn [length]; lia).
    destruct (detect _); try (apply nested_yes in H; exact H); try (injection H; auto; fail); destruct (csv_to_table _ _); try discriminate; injection H; auto. }
  destruct (ceq c "{"%char && _).
  { unfold mmd_include. destruct (strstr _ _) as [k|]; [|discriminate]. destruct (_ || _); [discriminate|]. cbv zeta. destruct (file E _) as [content|]; [|discriminate].
    destruct (cut _ _ _); try discriminate. intros H. apply as_text_yes in H. subst rest.
    pose proof (rest_len _ (skipn (k + 2) (skipn 1 r)) _ eq_refl (Nat.le_refl _)). rewrite !skipn_length in *. cbn [length]. lia. }
  destruct (start && _ && _); [|discriminate].
  unfold marked_include. cbv zeta.
  match goal with |- context [match ?q with Some _ => _ | None => No end] => destruct q as [cl|]; [|discriminate] end.
  destruct (strchr _ _) as [k|]; [|discriminate]. destruct (_ || _); [discriminate|].
  set (after := skipn (S k) (skipn 1 (skipn 1 r))).
  pose proof (rest_len _ after _ eq_refl (snd_span_len isspace after)) as L.
  set (rs := rest_of (address_at (snd (span isspace after))) after) in *.
  assert (La : length after <= length r) by (unfold after; rewrite !skipn_length; lia).
  intros H. enough (rest = rs) by (subst rest; cbn [length]; lia).
  destruct (file E _) as [content|]; [|injection H; auto]. destruct (cut _ _ _); try discriminate.
  destruct (ceq cl "]"%char); [apply as_text_yes in H; exact H|]. destruct (ceq cl ")"%char); injection H; auto.
Qed.
Lemma nested_stop E rec p c x rest o : nested E rec p c x rest = Stop o -> exists a b d, rec a b d = o.
Proof. unfold nested. cbv zeta. destruct (rec _ _ _) eqn:H; intros K; try discriminate; injection K as <-; eauto. Qed.
Lemma as_text_stop E rec p c x rest o : as_text E rec p c x rest = Stop o -> o = Fault \/ exists a b d, rec a b d = o.
Proof.
  unfold as_text. intros H. destruct (detect p); try (right; exact (nested_stop _ _ _ _ _ _ _ H));
  destruct (csv_to_table _ _); try (right; exact (nested_stop _ _ _ _ _ _ _ H)); injection H as <-; auto.
Qed.
Lemma include_stop E rec base start code s o : include_at E rec base start code s = Stop o ->
  o = Fault \/ (o = Endless /\ exists a content, part (rc E) a content = Loops) \/ exists a b d, rec a b d = o.
Proof.
  unfold include_at. destruct code; [discriminate|]. destruct s as [|c r]; [discriminate|].
  assert (Cut : forall a x, cut E a x = Loops -> exists a content, part (rc E) a content = Loops).
  { intros [[[y|] z]|] x K; cbn [cut] in K; try discriminate. eauto. }
  destruct (ceq c "/"%char && start).
  { unfold ia_include. destruct (span word_char r) as [f rst]. destruct (_ || _); [discriminate|]. cbv zeta.
    destruct (exists_ E _); [|discriminate]. destruct (file E _) as [content|]; [|discriminate].
    intros H. destruct (detect _); try discriminate; try (right; right; exact (nested_stop _ _ _ _ _ _ _ H));
    destruct (csv_to_table _ _); try discriminate; injection H as <-; auto. }
  destruct (ceq c "{"%char && _).
  { unfold mmd_include. destruct (strstr _ _) as [k|]; [|discriminate]. destruct (_ || _); [discriminate|]. cbv zeta. destruct (file E _) as [content|]; [|discriminate].
    destruct (cut _ _ _) as [x| |] eqn:K; intros H.
    - apply as_text_stop in H. tauto.
    - injection H as <-. auto.
    - injection H as <-. right. left. split; [reflexivity|]. exact (Cut _ _ K). }
  destruct (start && _ && _); [|discriminate].
  unfold marked_include. cbv zeta.
  match goal with |- context [match ?q with Some _ => _ | None => No end] => destruct q as [cl|]; [|discriminate] end.
  destruct (strchr _ _) as [k|]; [|discriminate]. destruct (_ || _); [discriminate|].
  destruct (file E _) as [content|]; [|discriminate]. destruct (cut _ _ _) as [x| |] eqn:K; intros H.
  - destruct (ceq cl "]"%char); [apply as_text_stop in H; tauto|]. destruct (ceq cl ")"%char); discriminate.
  - injection H as <-. auto.
  - injection H as <-. right. left. split; [reflexivity|]. exact (Cut _ _ K).
Qed.
Lemma loop_ends E rec base : (forall a b d, rec a b d <> NoFuel) -> forall fuel start code s w, length s < fuel -> loop E rec base fuel start code s w <> NoFuel.
Proof.
  intros Hr. induction fuel as [|fuel IH]; intros start code s w L; [lia|]. cbn [loop]. destruct s as [|c r]; [cbv zeta; destruct (w_oob _); discriminate|].
  cbv zeta. destruct (include_at E rec base start _ (c :: r)) as [|t rest|o] eqn:K.
  - apply IH. cbn [length] in L. lia.
  - apply include_shorter in K. apply IH. lia.
  - apply include_stop in K as [->|[[-> _]|(a & b & d & <-)]]; [discriminate|discriminate|apply Hr].
Qed.
Lemma process_ends E levels : forall text base tb, process E levels text base tb <> NoFuel.
Proof.
  induction levels as [|levels IH]; intros text base tb; cbn [process]; [discriminate|]. destruct (normalized text) as [t|]; [|discriminate].
  cbv zeta. apply loop_ends; [exact IH|lia].
Qed.
Lemma loop_endless E rec base : (forall a c, part (rc E) a c <> Loops) -> (forall a b d, rec a b d <> Endless) ->
  forall fuel start code s w, loop E rec base fuel start code s w <> Endless.
Proof.
  intros Hp Hr. induction fuel as [|fuel IH]; intros start code s w; [discriminate|]. cbn [loop]. destruct s as [|c r]; [cbv zeta; destruct (w_oob _); discriminate|].
  cbv zeta. destruct (include_at E rec base start _ (c :: r)) as [|t rest|o] eqn:K; [apply IH|apply IH|].
  apply include_stop in K as [->|[(_ & a & x & K)|(a & b & d & <-)]]; [discriminate|destruct (Hp a x K)|apply Hr].
Qed.
Lemma process_endless E : (forall x, rc E x <> None) -> forall levels text base tb, process E levels text base tb <> Endless.
Proof.
  intros H. induction levels as [|levels IH]; intros text base tb; cbn [process]; [discriminate|]. destruct (normalized text) as [t|]; [|discriminate].
  cbv zeta. apply loop_endless; [|exact IH]. intros a c. apply part_ends. exact H.
Qed.

(** * Wildcards *)
Lemma glob_wild E f base : existsb is_glob f = true -> resolve_wildcard E f base = glob E (resolve_path f base).
Proof.
  intros H. unfold resolve_wildcard. cbv zeta. rewrite H. destruct (strstr (B ".*") f) as [k|] eqn:Es; [|reflexivity].
  apply strstr_some in Es as (u & v & -> & L & _). subst k.
  assert (K : at_ (u ++ B ".*" ++ v) (length u + 1) = "*"%char).
  { unfold at_. rewrite app_nth2 by lia. replace (length u + 1 - length u) with 1 by lia. reflexivity. }
  rewrite K. reflexivity.
Qed.

(** * The size of the buffers *)
Lemma normalize_len fuel : forall s start fence, match fence with Some (o, w) => w <= S o | None => True end ->
  length (normalize fuel start fence s) <= 2 * length s.
Proof.
  induction fuel as [|fuel IH]; intros s start fence F; [cbn; lia|]. destruct s as [|c r]; [cbn; lia|]. cbn [normalize].
  destruct (start && ceq c BT).
  - destruct (span (ceq BT) (c :: r)) as [t r1] eqn:Es. apply span_app in Es. apply (f_equal (@length ascii)) in Es. rewrite app_length in Es.
    destruct (Nat.leb_spec 3 (length t)).
    + destruct (span in_line r1) as [line r2] eqn:El. apply span_app in El. apply (f_equal (@length ascii)) in El. rewrite app_length in El.
      assert (K : forall m f', (match fence with Some (o, w) => if length t =? o then (w, None) else (length t, fence)
        | None => let w := if Nat.even (length t) then S (length t) else length t in (w, Some (length t, w)) end) = (m, f') ->
        m <= S (length t) /\ match f' with Some (o, w) => w <= S o | None => True end).
      { intros m f'. destruct fence as [[o w]|].
        - destruct (Nat.eqb_spec (length t) o); intros Em; injection Em as <- <-; [subst; auto|auto].
        - cbv zeta. destruct (Nat.even (length t)); intros Em; injection Em as <- <-; auto. }
      destruct (match fence with Some _ => _ | None => _ end) as [m f'] eqn:Em. destruct (K m f' eq_refl) as [K1 K2].
      unfold ticks. rewrite !app_length, repeat_length. pose proof (IH r2 false f' K2). lia.
    + rewrite app_length. pose proof (IH r1 false fence F). lia.
  - cbn [length]. pose proof (IH r (ceq c NL) fence F). lia.
Qed.
Lemma normalized_some s : exists t, normalized s = Some t.
Proof.
  unfold normalized. cbv zeta. pose proof (normalize_len (S (length s)) s true None I).
  destruct (Nat.ltb_spec (length (normalize (S (length s)) true None s)) (length s * 2 + 1)); [eauto|lia].
Qed.
Section NoFiles.
Variable E : env.
Hypothesis none : forall p, file E p = None.
Lemma include_none rec base start code s : match include_at E rec base start code s with No => True | Yes t _ => t = None | Stop _ => False end.
Proof.
  unfold include_at. destruct code; [exact I|]. destruct s as [|c r]; [exact I|].
  destruct (ceq c "/"%char && start).
  { unfold ia_include. destruct (span word_char r) as [f rst]. destruct (_ || _); [exact I|]. cbv zeta. rewrite none. destruct (exists_ E _); exact I. }
  destruct (ceq c "{"%char && _).
  { unfold mmd_include. destruct (strstr _ _) as [k|]; [|exact I]. destruct (_ || _); [exact I|]. cbv zeta. rewrite none. exact I. }
  destruct (start && _ && _); [|exact I].
  unfold marked_include. cbv zeta.
  match goal with |- context [match ?q with Some _ => _ | None => No end] => destruct q as [cl|]; [|exact I] end.
  destruct (strchr _ _) as [k|]; [|exact I]. destruct (_ || _); [exact I|]. rewrite none. reflexivity.
Qed.
Lemma loop_none rec base : forall fuel start code s w, length s < fuel -> w_ok w -> length s < w_rem w ->
  exists t, loop E rec base fuel start code s w = Done t.
Proof.
  induction fuel as [|fuel IH]; intros start code s w L W Lw; [lia|]. destruct s as [|c r].
  - rewrite loop_end; [eauto|exact W|cbn in Lw; lia].
  - cbn [loop]. cbv zeta. set (cd := if ceq c BT then negb code else code). pose proof (include_none rec base start cd (c :: r)) as K.
    destruct (include_at E rec base start cd (c :: r)) as [|t rest|o] eqn:Ei.
    + cbn [length] in *. apply IH; [lia|apply w_put_ok, W|rewrite w_put_rem; lia].
    + subst t. apply include_shorter in Ei. apply IH; [lia|exact W|lia].
    + destruct K.
Qed.
Lemma process_none levels text base tb : exists t, process E levels text base tb = Done t.
Proof.
  destruct levels as [|levels]; [cbn; eauto|]. cbn [process]. destruct (normalized_some text) as [t ->]. cbv zeta.
  apply loop_none; [lia|apply w_ok_new|cbn [w_rem w_new]; apply cap_big].
Qed.
End NoFiles.
Definition full_file : str := repeat "a"%char (2 ^ 20 - 1).
(** One file, named f. *)
Definition one_file (x : str) : env := Env (fun p => if seq_ p (B "f") then Some x else None) (fun p => seq_ p (B "f")) (fun _ => None) (fun _ => None) (fun _ => None).
Lemma quiet_repeat n : forall start, quiet start (repeat "a"%char n).
Proof.
  induction n as [|n IH]; intros start; [exact I|]. cbn [repeat quiet]. split; [intros [K _]; discriminate|]. split; [|apply IH].
  intros _. split; [discriminate|intros [K _]; discriminate].
Qed.
Lemma repeat_fence n : no_even_fence (repeat "a"%char n).
Proof. apply fence_free. intros K. apply repeat_spec in K. discriminate. Qed.
Lemma overrun ff lv C : 2000 < C -> length ff = C - 1 -> quiet true ff -> no_even_fence ff ->
  loop (one_file ff) (process (one_file ff) lv) (transclude_base None None) (S (length (B "{{f}}xy"))) true false (B "{{f}}xy") (w_new C C) = Fault.
Proof.
  intros P20 Lf Qf Nf.
  pose proof (process_quiet (one_file ff) lv ff (Some (B ".")) None Qf Nf) as Pq.
  assert (K : include_at (one_file ff) (process (one_file ff) lv) (transclude_base None None) true false (B "{{f}}xy") = Yes (Some ff) (B "xy")).
  { unfold include_at. cbn [B list_ascii_of_string]. change (ceq "{"%char "/"%char) with false. change (ceq "{"%char "{"%char) with true. cbn [andb at_ nth].
    change (ceq "{"%char "{"%char) with true. cbv iota. change (skipn 1 ["{"%char; "f"%char; "}"%char; "}"%char; "x"%char; "y"%char]) with (B "f}}xy").
    unfold mmd_include. change (strstr (B "}}") (B "f}}xy")) with (Some 1). change ((1 =? 0) || (1024 <=? 1)) with false. cbv iota zeta.
    change (resolve_wildcard (one_file ff) (firstn 1 (B "f}}xy")) (transclude_base None None)) with (Some (B "f")). cbv iota.
    change (file (one_file ff) (B "f")) with (Some ff). cbv iota. change (address_at (skipn (1 + 2) (B "f}}xy"))) with (@None (option str * str)).
    cbn [cut rest_of]. unfold as_text. change (detect (B "f")) with TextFile. cbv iota. unfold nested. change (tbase (one_file ff) ff) with (@None str). cbv zeta.
    change (transclude_base (Some (get_directory (B "f"))) None) with (Some (B ".")). rewrite Pq. reflexivity. }
  clear Pq. set (w := w_new C C).
  change (B "{{f}}xy") with ("{"%char :: B "{f}}xy") in *. cbn [loop length]. change (ceq "{"%char BT) with false. cbv iota zeta. rewrite K.
  assert (W : w_puts_lt ff w = Wr C ff 1 false).
  { unfold w_puts_lt, w, w_new, w_store, w_set_rem. cbn [w_rem w_out w_cap w_oob app length]. destruct (Nat.ltb_spec (length ff) C); [|lia].
    cbn [orb]. f_equal; [lia|]. destruct ff as [|a0 l0]; [reflexivity|]. apply Nat.ltb_ge. cbn [plus]. lia. }
  rewrite W. cbn [B list_ascii_of_string length loop]. change (ceq "x"%char BT) with false. cbv iota zeta.
  change (include_at (one_file ff) (process (one_file ff) lv) (transclude_base None None) false false ["x"%char; "y"%char]) with No. cbv iota.
  change (ceq "y"%char BT) with false. cbv iota.
  change (include_at (one_file ff) (process (one_file ff) lv) (transclude_base None None) (ceq "x"%char NL) false ["y"%char]) with No. cbv iota.
  assert (W1 : w_put "x"%char (Wr C ff 1 false) = Wr C (ff ++ B "x") 0 false).
  { unfold w_put, w_store, w_set_rem. cbn [w_rem w_cap w_out w_oob Nat.ltb Nat.leb Nat.sub length orb]. f_equal. apply Nat.ltb_ge. lia. }
  rewrite W1. assert (W2 : w_put "y"%char (Wr C (ff ++ B "x") 0 false) = Wr C (ff ++ B "x") 0 false) by reflexivity. rewrite W2.
  assert (W3 : w_oob (w_term (Wr C (ff ++ B "x") 0 false)) = true).
  { unfold w_term. cbn [w_oob w_cap w_out orb]. apply Nat.leb_le. rewrite app_length. cbn [length B list_ascii_of_string]. lia. }
  rewrite W3. reflexivity.
Qed.
Lemma full_overrun : process_includes (one_file full_file) (B "{{f}}xy") None None = Fault.
Proof.
  unfold process_includes. set (lv := 10). change 11 with (S lv). cbn [process]. rewrite normalized_id by (apply fence_free; cbn; intuition discriminate).
  cbv zeta. rewrite Nat.max_r; [apply overrun; [exact pow20|apply repeat_length|apply quiet_repeat|apply repeat_fence]|].
  apply Nat.lt_le_incl, Nat.lt_trans with 2000; [cbn [length B list_ascii_of_string]; lia|exact pow20].
Qed.

(** * Code includes *)
Lemma body_lines k ls rest : (forall l, In l ls -> ~ closes k l) -> closes k (repeat BT k) -> Body k (ls ++ repeat BT k :: rest) ls.
Proof.
  intros H Hc. induction ls as [|l ls IH]; cbn [app]; [constructor; exact Hc|]. constructor; [apply H; left; reflexivity|].
  apply IH. intros x Hx. apply H. right. exact Hx.
Qed.
Lemma closes_self k : closes k (repeat BT k).
Proof. exists 0, k, []. rewrite app_nil_r. split; [reflexivity|]. split; [lia|]. split; [lia|constructor]. Qed.
Lemma body_read k x ls tail : Lines x ls tail -> (forall l, In l (ls ++ [tail]) -> ~ closes k l) ->
  exists ls', Lines (x ++ [NL] ++ repeat BT k ++ [NL]) ls' [] /\ Body k ls' (ls ++ [tail]) /\ block_text (ls ++ [tail]) = x ++ [NL].
Proof.
  intros (-> & F & Ft) H. exists (ls ++ [tail; repeat BT k]). split; [|split].
  - split; [|split; [|intros []]].
    + rewrite map_app, concat_app. cbn [map concat]. rewrite !app_nil_r, <- !app_assoc. reflexivity.
    + apply Forall_app. split; [exact F|]. constructor; [exact Ft|]. constructor; [|constructor]. intros K. apply repeat_spec in K. discriminate.
  - change [tail; repeat BT k] with ([tail] ++ repeat BT k :: []). rewrite app_assoc. apply body_lines; [exact H|apply closes_self].
  - unfold block_text. rewrite map_app, concat_app. cbn [map concat]. rewrite app_nil_r, <- app_assoc. reflexivity.
Qed.
Lemma code_start E levels f content base tb : short f -> ~ In BT f -> ~ In ")"%char f -> length (lang_of f) <= 122 ->
  file E (resolve_path f (transclude_base base tb)) = Some content -> length content + 200 < 2 ^ 20 ->
  process E (S levels) (B "<<(" ++ f ++ B ")") base tb = Done (fence_of (lang_of f) content).
Proof.
  intros Fs Ft Fb Fl Hf Lc. pose proof (marked_gen E levels (B "(" ++ f ++ B ")") [] base tb (Some (fence_of (lang_of f) content))) as K.
  rewrite !app_nil_r in K. apply K.
  - rewrite !app_length; cbn [length B list_ascii_of_string]. destruct f; [destruct Fs; congruence|cbn; lia].
  - rewrite !in_app_iff. intros [Q|[Q|Q]]; [cbn in Q; intuition discriminate|exact (Ft Q)|cbn in Q; intuition discriminate].
  - exact I.
  - unfold marked_include. change (B "(" ++ f ++ B ")") with ("("%char :: f ++ B ")"). cbn [at_ nth]. cbv zeta. change (skipn 1 ("("%char :: f ++ B ")")) with (f ++ [")"%char]).
    rewrite (strchr_plain ")"%char f _ Fb), (short_guard f Fs). rewrite firstn_plain, skipn_plain, Hf.
    change (span isspace []) with (@nil ascii, @nil ascii); cbn [snd]; rewrite (address_none [] I). cbn [cut rest_of]. change (ceq ")"%char "]"%char) with false. change (ceq ")"%char ")"%char) with true. cbv iota.
    rewrite firstn_all2. { unfold fence_of, ticks. rewrite <- !app_assoc. reflexivity. }
    rewrite !app_length. unfold ticks. rewrite repeat_length. cbn [length]. lia.
  - unfold fence_of. rewrite !app_length, !repeat_length. cbn [length]. lia.
Qed.
Lemma code_reads E levels f content base tb ls tail : short f -> ~ In BT f -> ~ In ")"%char f -> length (lang_of f) <= 122 ->
  file E (resolve_path f (transclude_base base tb)) = Some content -> length content + 200 < 2 ^ 20 ->
  Lines content ls tail -> (forall l, In l (ls ++ [tail]) -> ~ closes 3 l) ->
  exists rest ls' b, process E (S levels) (B "<<(" ++ f ++ B ")") base tb = Done ([NL] ++ repeat BT 3 ++ lang_of f ++ [NL] ++ rest) /\
    Lines rest ls' [] /\ Body 3 ls' b /\ block_text b = content ++ [NL].
Proof.
  intros Fs Ft Fb Fl Hf Lc Hl Hc. destruct (body_read 3 content ls tail Hl Hc) as (ls' & L' & B' & T').
  exists (content ++ [NL] ++ repeat BT 3 ++ [NL]), ls', (ls ++ [tail]). split; [apply code_start; assumption|auto].
Qed.
Lemma raw_start E levels f content base tb : short f -> ~ In BT f -> ~ In "}"%char f -> length (resolve_path f (transclude_base base tb)) <= 999 ->
  file E (resolve_path f (transclude_base base tb)) = Some content ->
  process E (S levels) (B "<<{" ++ f ++ B "}") base tb = Done (B "<!--APEX_RAW_INCLUDE:" ++ resolve_path f (transclude_base base tb) ++ B "-->").
Proof.
  intros Fs Ft Fb Lp Hf. set (p := resolve_path f (transclude_base base tb)) in *.
  pose proof (marked_gen E levels (B "{" ++ f ++ B "}") [] base tb (Some (B "<!--APEX_RAW_INCLUDE:" ++ p ++ B "-->"))) as K.
  rewrite !app_nil_r in K. apply K.
  - rewrite !app_length; cbn [length B list_ascii_of_string]. destruct f; [destruct Fs; congruence|cbn; lia].
  - rewrite !in_app_iff. intros [Q|[Q|Q]]; [cbn in Q; intuition discriminate|exact (Ft Q)|cbn in Q; intuition discriminate].
  - exact I.
  - unfold marked_include. change (B "{" ++ f ++ B "}") with ("{"%char :: f ++ B "}"). cbn [at_ nth]. cbv zeta. change (skipn 1 ("{"%char :: f ++ B "}")) with (f ++ ["}"%char]).
    rewrite (strchr_plain "}"%char f _ Fb), (short_guard f Fs). rewrite firstn_plain, skipn_plain. fold p. rewrite Hf.
    change (span isspace []) with (@nil ascii, @nil ascii); cbn [snd]; rewrite (address_none [] I). cbn [cut rest_of]. change (ceq "}"%char "]"%char) with false. change (ceq "}"%char ")"%char) with false. cbv iota.
    rewrite firstn_all2; [reflexivity|]. rewrite !app_length. cbn [length B list_ascii_of_string]. lia.
  - rewrite !app_length. cbn [length B list_ascii_of_string]. pose proof pow20. lia.
Qed.
(** Only the folder in which includes are looked up matters. *)
Lemma process_base E levels text b1 t1 b2 t2 : transclude_base b1 t1 = transclude_base b2 t2 -> process E levels text b1 t1 = process E levels text b2 t2.
Proof. intros H. destruct levels as [|levels]; [reflexivity|]. cbn [process]. rewrite H. reflexivity. Qed.
Lemma marked_text E levels f content base tb t : short f -> ~ In BT f -> ~ In "]"%char f -> let p := resolve_path f (transclude_base base tb) in
  file E p = Some content -> detect p <> CsvFile -> detect p <> TsvFile -> length t < 2 ^ 20 ->
  process E levels content (transclude_base (Some (get_directory p)) (tbase E content)) (tbase E content) = Done t ->
  process E (S levels) (B "<<[" ++ f ++ B "]") base tb = Done t.
Proof.
  intros Fs Ft Fb p Hf D1 D2 Lt Ht. pose proof (marked_start E levels f [] base tb (Some t) Fs Ft Fb I I) as K. cbn [length] in K.
  change (B "]" ++ []) with (B "]") in K. rewrite app_nil_r in K. apply K; [|lia].
  unfold marked_include. cbn [at_ nth]. cbv zeta. change (skipn 1 ("["%char :: f ++ B "]")) with (f ++ ["]"%char]).
  rewrite (strchr_plain "]"%char f _ Fb), (short_guard f Fs). rewrite firstn_plain, skipn_plain. fold p. rewrite Hf.
  change (span isspace []) with (@nil ascii, @nil ascii); cbn [snd]; rewrite (address_none [] I). cbn [cut rest_of]. change (ceq "]"%char "]"%char) with true. cbv iota. unfold as_text.
  destruct (detect p); try congruence; unfold nested; cbv zeta; rewrite Ht; reflexivity.
Qed.
Lemma home_text E levels f content base tb home t : short f -> ~ In BT f -> ~ In "]"%char f ->
  file E (resolve_path f (transclude_base base tb)) = Some content -> detect (resolve_path f (transclude_base base tb)) = Markdown -> length t < 2 ^ 20 ->
  Home E (resolve_path f (transclude_base base tb)) content home -> process E levels content (Some home) None = Done t ->
  process E (S levels) (B "<<[" ++ f ++ B "]") base tb = Done t.
Proof.
  intros Fs Ft Fb Hf D Lt Hh Ht. apply (marked_text E levels f content base tb t Fs Ft Fb Hf); [congruence|congruence|exact Lt|].
  rewrite <- Ht. apply process_base. apply home_base. exact Hh.
Qed.
Lemma relative_text E levels f content base tb r t : short f -> ~ In BT f -> ~ In "]"%char f ->
  file E (resolve_path f (transclude_base base tb)) = Some content -> detect (resolve_path f (transclude_base base tb)) = Markdown -> length t < 2 ^ 20 ->
  tbase E content = Some r -> at_ r 0 <> "/"%char -> at_ r 0 <> "."%char ->
  process E levels content (Some (get_directory (resolve_path f (transclude_base base tb)) ++ B "/" ++ r ++ B "/" ++ r)) None = Done t ->
  process E (S levels) (B "<<[" ++ f ++ B "]") base tb = Done t.
Proof.
  intros Fs Ft Fb Hf D Lt Hb N1 N2 Ht. apply (marked_text E levels f content base tb t Fs Ft Fb Hf); [congruence|congruence|exact Lt|].
  rewrite <- Ht. apply process_base. rewrite Hb. unfold transclude_base at 1 2. apply ceq_neq in N1, N2. rewrite N1, N2. cbn [andb].
  cbn [transclude_base]. rewrite <- app_assoc. reflexivity.
Qed.
Lemma marked_after E levels f content v base tb : short f -> ~ In BT f -> ~ In "]"%char f -> inert false v -> no_bracket_ws v ->
  file E (resolve_path f (transclude_base base tb)) = Some content ->
  detect (resolve_path f (transclude_base base tb)) <> CsvFile -> detect (resolve_path f (transclude_base base tb)) <> TsvFile ->
  quiet true content -> no_even_fence content -> length content + length v < 2 ^ 20 ->
  process E (S levels) (B "<<[" ++ f ++ B "]" ++ v) base tb = Done (content ++ v).
Proof.
  intros Fs Ft Fb Iv Nv Hf D1 D2 Qc Nc L. apply (marked_start E levels f v base tb (Some content) Fs Ft Fb Iv Nv); [|lia].
  unfold marked_include. cbn [at_ nth]. cbv zeta. change (skipn 1 ("["%char :: f ++ B "]" ++ v)) with (f ++ "]"%char :: v).
  rewrite (strchr_plain "]"%char f _ Fb), (short_guard f Fs). rewrite firstn_plain, skipn_plain, Hf.
  rewrite (address_none _ Nv). cbn [cut rest_of]. change (ceq "]"%char "]"%char) with true. cbv iota. unfold as_text.
  destruct (detect _); try congruence; unfold nested; cbv zeta; rewrite process_quiet by assumption; reflexivity.
Qed.
Lemma closes_count k l : closes k l -> k <= count_occ ascii_dec l BT.
Proof.
  intros (i & n & w & -> & _ & L & _). rewrite !count_occ_app.
  assert (R : count_occ ascii_dec (repeat BT n) BT = n).
  { clear. induction n as [|n IH]; [reflexivity|]. cbn [repeat count_occ]. destruct (ascii_dec BT BT); [rewrite IH; reflexivity|congruence]. }
  lia.
Qed.
(** * Names of files *)
Lemma path_resolve f base p : Path f base p -> resolve_path f base = p.
Proof.
  intros H. unfold resolve_path. destruct H as [f base|f base N D|f d N D].
  - reflexivity.
  - apply ceq_neq in N. rewrite N. destruct D as [-> | ->]; reflexivity.
  - apply ceq_neq in N. rewrite N. destruct d; [congruence|reflexivity].
Qed.
Lemma split_last_app c a b : ~ In c b -> split_last c (a ++ c :: b) = Some (a, b).
Proof.
  intros H. induction a as [|d a IH]; cbn [app split_last].
  - assert (K : split_last c b = None).
    { clear -H. induction b as [|x b IH]; [reflexivity|]. cbn [split_last]. apply nin_cons in H as [N H]. rewrite (IH H).
      rewrite (proj2 (ceq_neq x c)) by congruence. reflexivity. }
    rewrite K, ceq_refl. reflexivity.
  - rewrite IH. reflexivity.
Qed.
Lemma split_last_none c b : ~ In c b -> split_last c b = None.
Proof.
  induction b as [|x b IH]; intros H; [reflexivity|]. cbn [split_last]. apply nin_cons in H as [N H]. rewrite (IH H).
  rewrite (proj2 (ceq_neq x c)) by congruence. reflexivity.
Qed.
Lemma drop_slashes_repeat n : drop_slashes (repeat "/"%char n) = [].
Proof. induction n as [|n IH]; [reflexivity|]. cbn [repeat drop_slashes]. rewrite IH. reflexivity. Qed.
Lemma drop_slashes_app a c n : c <> "/"%char -> drop_slashes (a ++ [c] ++ repeat "/"%char n) = a ++ [c].
Proof.
  intros H. induction a as [|d a IH]; cbn [app drop_slashes].
  - rewrite drop_slashes_repeat. apply ceq_neq in H. rewrite H. reflexivity.
  - change (a ++ c :: repeat "/"%char n) with (a ++ [c] ++ repeat "/"%char n). rewrite IH. destruct (a ++ [c]) eqn:E; [destruct a; discriminate|reflexivity].
Qed.
Lemma repeat_last (c : ascii) n : repeat c (S n) = repeat c n ++ [c].
Proof. exact (repeat_cons n c). Qed.
Lemma folder_directory p d : Folder p d -> get_directory p = d.
Proof.
  intros H. unfold get_directory. destruct H as [name N|a c n name C E N|n name E N].
  - rewrite split_last_none by exact N. reflexivity.
  - rewrite repeat_last. replace (a ++ [c] ++ (repeat "/"%char n ++ ["/"%char]) ++ name) with ((a ++ [c] ++ repeat "/"%char n) ++ "/"%char :: name)
      by (rewrite <- !app_assoc; reflexivity).
    rewrite split_last_app by exact N. rewrite drop_slashes_app by exact C. destruct (a ++ [c]) eqn:Q; [destruct a; discriminate|reflexivity].
  - rewrite repeat_last, <- app_assoc. cbn [app]. rewrite split_last_app by exact N. rewrite drop_slashes_repeat. reflexivity.
Qed.
Lemma suffix_split p e : Suffix p e -> exists a, split_last "."%char p = Some (a, e).
Proof. intros (a & -> & H). exists a. apply split_last_app. exact H. Qed.
Lemma seq_B_false e x : e <> B x -> seq_ e (B x) = false.
Proof. intros H. destruct (seq_ e (B x)) eqn:E; [|reflexivity]. apply seq_eq in E. congruence. Qed.
Lemma kind_detect p k : Kind p k -> detect p = k.
Proof.
  intros H. unfold detect. destruct H as [e k l x S I X E|e S N|N].
  - apply suffix_split in S as [a ->]. cbv zeta. rewrite E. cbn [In kinds] in I.
    repeat (destruct I as [I|I]; [injection I as <- <-; cbn [In] in X; repeat (destruct X as [<-|X]; [vm_compute; reflexivity|]); destruct X|]). destruct I.
  - apply suffix_split in S as [a ->]. cbv zeta.
    assert (K : forall k l, In (k, l) kinds -> existsb (fun x => seq_ (map tolower e) (B x)) l = false).
    { intros k l I. destruct (existsb _ l) eqn:E; [|reflexivity]. apply existsb_exists in E as (x & X & E). apply seq_eq in E. destruct (N k l x I X E). }
    cbn [kinds In] in K. repeat match goal with |- context [existsb ?f ?l] => rewrite (K _ l) by (repeat (try (left; reflexivity); right)) end. reflexivity.
  - rewrite split_last_none by exact N. reflexivity.
Qed.
Lemma language_of f l : Language f l -> lang_of f = l.
Proof.
  intros H. unfold lang_of. destruct H as [e x l S I E|e S N|N].
  - apply suffix_split in S as [a ->]. subst e. cbn [In languages] in I.
    repeat (destruct I as [I|I]; [injection I as <- <-; vm_compute; reflexivity|]). destruct I.
  - apply suffix_split in S as [a ->]. cbn [languages In] in N.
    repeat match goal with |- context [seq_ e (B ?x)] => rewrite (seq_B_false e x) by (intros ->; eapply N; [|reflexivity]; repeat (try (left; reflexivity); right)) end.
    reflexivity.
  - rewrite split_last_none by exact N. reflexivity.
Qed.
