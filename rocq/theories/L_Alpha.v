(** Lemmas for lists with letters. *)
From Verif Require Import Base BaseL Dec L_Pass M_Relax S_Relax L_Relax M_Alpha S_Alpha.

(** ** Lines *)
Lemma gaps_bool w : gaps w <-> Forall (fun c => gap c = true) w.
Proof. unfold gaps. rewrite !Forall_forall. split; intros H c I; apply gap_spec; exact (H c I). Qed.

Lemma letter_bool c : islower c || isupper c = true <-> In c (lowers ++ uppers).
Proof.
  assert (E : Bool.eqb (islower c || isupper c) (existsb (ceq c) (lowers ++ uppers)) = true) by exact (byte_forall (fun c => Bool.eqb (islower c || isupper c) (existsb (ceq c) (lowers ++ uppers))) eq_refl c).
  apply Bool.eqb_prop in E. rewrite E, existsb_exists. split; [intros (d & I & Q); apply ceq_eq in Q; now subst|intro I; exists c; split; [exact I|apply ceq_refl]].
Qed.

Lemma upper_bool c : isupper c = true <-> In c uppers.
Proof.
  assert (E : Bool.eqb (isupper c) (existsb (ceq c) uppers) = true) by exact (byte_forall (fun c => Bool.eqb (isupper c) (existsb (ceq c) uppers)) eq_refl c).
  apply Bool.eqb_prop in E. rewrite E, existsb_exists. split; [intros (d & I & Q); apply ceq_eq in Q; now subst|intro I; exists c; split; [exact I|apply ceq_refl]].
Qed.

Lemma ended_bool r : ended r = true <-> r = [] \/ exists d q, r = d :: q /\ (d = SP \/ d = TAB).
Proof.
  destruct r as [|d q]; cbn [ended]; [split; auto|]. rewrite gap_spec. split; [intro H; right; exists d, q; auto|]. intros [E|(d' & q' & E & H)]; [discriminate|]. injection E as -> ->. exact H.
Qed.

Lemma letter_not_gap c : islower c || isupper c = true -> gap c = false.
Proof. intro H. pose proof (byte_forall (fun c => negb (islower c || isupper c) || negb (gap c)) eq_refl c) as E. cbv beta in E. rewrite H in E. cbn in E. now apply Bool.negb_true_iff in E. Qed.

Lemma span_pair p a (c : ascii) r : Forall (fun c => p c = true) a -> p c = false -> span p (a ++ c :: r) = (a, c :: r).
Proof. intros F C. induction F as [|x a X F IH]; cbn [app span]; [now rewrite C|]. now rewrite X, IH. Qed.

Lemma span_all p (a : str) : Forall (fun c => p c = true) a -> span p a = (a, []).
Proof. intro F. induction F as [|x a X F IH]; cbn [span]; [reflexivity|]. now rewrite X, IH. Qed.

Lemma marker_item l w c r : marker l = Some (w, c, r) <-> item l w c r.
Proof.
  unfold marker, item. split.
  - destruct (span gap l) as [w' p] eqn:E. pose proof (span_shape gap l) as (F & _ & Q). rewrite E in F, Q. cbn [fst snd] in F, Q. destruct p as [|c' [|d r']]; try discriminate. destruct ((islower c' || isupper c') && ceq d "." && ended r') eqn:H; [|discriminate]. intro X. injection X as -> -> ->.
    apply Bool.andb_true_iff in H. destruct H as [H H3]. apply Bool.andb_true_iff in H. destruct H as [H1 H2]. apply ceq_eq in H2. subst d. split; [exact Q|]. split; [apply gaps_bool; exact F|]. split; [apply letter_bool; exact H1|apply ended_bool; exact H3].
  - intros (-> & G & C & R). apply gaps_bool in G. apply letter_bool in C. apply ended_bool in R. rewrite (span_pair gap w c ("."%char :: r) G (letter_not_gap c C)). rewrite C, R, ceq_refl. reflexivity.
Qed.

Lemma marker_none l : marker l = None <-> no_item l.
Proof.
  unfold no_item. split; [intros H w c r I; apply marker_item in I; congruence|]. intro H. destruct (marker l) as [[[w c] r]|] eqn:E; [|reflexivity]. apply marker_item in E. contradiction (H w c r E).
Qed.

Lemma blank_none g : gaps g -> marker g = None.
Proof. intro G. apply gaps_bool in G. unfold marker. rewrite (span_all gap g G). reflexivity. Qed.

Lemma next_follows c d : In c (lowers ++ uppers) -> follows c d <-> d = (if isupper c then next_up c else next_lo c).
Proof.
  intro I. assert (E : Forall (fun c => forall d, follows c d <-> d = (if isupper c then next_up c else next_lo c)) (lowers ++ uppers)).
  { assert (K : Forall (fun al => forall i, i < 26 -> forall c, nth_error al i = Some c -> nth_error al ((i + 1) mod 26) = Some (if isupper c then next_up c else next_lo c)) [lowers; uppers]).
    { repeat constructor; intros i Hi; do 26 (destruct i as [|i]; [intros x X; injection X as <-; vm_compute; reflexivity|]); lia. }
    assert (U : forall al i x, al = lowers \/ al = uppers -> nth_error al i = Some x -> nth_error al ((i + 1) mod 26) = Some (if isupper x then next_up x else next_lo x)).
    { intros al i x H N. rewrite Forall_forall in K. apply (K al); [destruct H as [-> | ->]; cbn; auto| |exact N]. assert (L : i < length al) by (apply nth_error_Some; congruence). destruct H as [-> | ->]; exact L. }
    apply Forall_forall. intros x X y. unfold follows. split.
    - intros (al & i & A & N & M). rewrite (U al i x A N) in M. injection M as <-. reflexivity.
    - intros ->. apply in_app_or in X. assert (Y : exists al i, (al = lowers \/ al = uppers) /\ nth_error al i = Some x) by (destruct X as [X|X]; apply In_nth_error in X; destruct X as [i X]; eauto). destruct Y as (al & i & A & N). exists al, i. auto. }
  rewrite Forall_forall in E. exact (E c I d).
Qed.

Lemma next_kind c : In c (lowers ++ uppers) -> isupper (if isupper c then next_up c else next_lo c) = isupper c /\ In (if isupper c then next_up c else next_lo c) (lowers ++ uppers).
Proof.
  intro I. assert (E : forallb (fun c => Bool.eqb (isupper (if isupper c then next_up c else next_lo c)) (isupper c) && existsb (ceq (if isupper c then next_up c else next_lo c)) (lowers ++ uppers)) (lowers ++ uppers) = true) by (vm_compute; reflexivity).
  rewrite forallb_forall in E. specialize (E c I). apply Bool.andb_true_iff in E. destruct E as [E1 E2]. apply Bool.eqb_prop in E1. split; [exact E1|]. apply existsb_exists in E2. destruct E2 as (d & J & D). apply ceq_eq in D. now rewrite D.
Qed.

Lemma mark_sign c : mark_line (isupper c) = sign c ++ [NL] ++ [NL].
Proof. unfold sign, mark_line. destruct (in_dec ascii_dec c uppers) as [I|I]; [apply upper_bool in I; rewrite I; reflexivity|]. rewrite (bool_not _ _ (upper_bool c) I). reflexivity. Qed.

(** ** Without bounds *)
Definition far (cap : nat) (s : alpha) : Prop := length (a_out s) < cap.

(** the state with other output *)
Definition with_out (s : alpha) (o : str) : alpha := Alpha (a_in s) (a_upper s) (a_lo s) (a_up s) (a_number s) (a_blanks s) o (a_bad s).

(** the pass without a bound on its output *)
Definition pitem (w : str) (c : ascii) (r : str) (nl : bool) (s : alpha) : alpha :=
  let u := isupper c in
  let goes_on := a_in s && Bool.eqb u (a_upper s) && ceq c (if u then a_up s else a_lo s) in
  let s := if goes_on then s else Alpha true u (if u then a_lo s else c) (if u then c else a_up s) 1 0 (a_out s ++ mark_line u) (a_bad s) in
  Alpha true u (if u then a_lo s else next_lo (a_lo s)) (if u then next_up (a_up s) else a_up s) (S (a_number s)) 0 ((a_out s ++ w ++ dec (a_number s) ++ B ". ") ++ r ++ if nl then [NL] else []) (a_bad s).

Definition pother (l : str) (s : alpha) : alpha :=
  let set i b o x := Alpha i (a_upper s) (a_lo s) (a_up s) (a_number s) b o x in
  if a_in s then
    match snd (span gap l) with
    | [] => set (S (a_blanks s) <? 2) (S (a_blanks s)) (a_out s) (a_bad s)
    | c :: p =>
        if isdigit c then
          let (ds, q) := span isdigit (c :: p) in
          let v := digits_value ds in
          let one := (v =? 1)%Z && (match q with d :: q => ceq d "." && ended q | [] => false end) && (0 <? a_blanks s) in
          set false 0 (if one then a_out s ++ [NL; NL] ++ B " " ++ [NL; NL] else a_out s) (a_bad s || (2147483647 <? v)%Z)
        else set false 0 (a_out s) (a_bad s)
    end
  else s.

Definition pline (s : alpha) (ln : str * bool) : alpha :=
  let (l, nl) := ln in
  match marker l with
  | Some (w, c, r) => pitem w c r nl s
  | None => let s := pother l s in with_out s (a_out s ++ l ++ if nl then [NL] else [])
  end.

Lemma pline_grows s ln : exists x, a_out (pline s ln) = a_out s ++ x.
Proof.
  destruct ln as [l nl]. unfold pline. destruct (marker l) as [[[w c] r]|].
  - unfold pitem. destruct (_ && _ && _); cbn [a_out]; eexists; rewrite <- !app_assoc; reflexivity.
  - unfold with_out, pother. destruct (a_in s); [|cbn [a_out]; eexists; reflexivity]. destruct (snd (span gap l)) as [|c p]; [cbn [a_out]; eexists; reflexivity|]. destruct (isdigit c); [|cbn [a_out]; eexists; reflexivity].
    destruct (span isdigit (c :: p)) as [ds q]. cbn [a_out]. destruct (_ && _ && _); eexists; [rewrite <- !app_assoc; reflexivity|reflexivity].
Qed.

Lemma plines_grow ls : forall s, exists x, a_out (fold_left pline ls s) = a_out s ++ x.
Proof.
  induction ls as [|l ls IH]; intro s; [exists []; cbn; now rewrite app_nil_r|]. cbn [fold_left]. destruct (IH (pline s l)) as (x & E). destruct (pline_grows s l) as (y & E'). exists (y ++ x). rewrite E, E', app_assoc. reflexivity.
Qed.

Lemma print_fits cap x o : length (o ++ x) < cap -> print cap x o = o ++ x.
Proof. unfold print. rewrite app_length. intro H. destruct (Nat.ltb_spec (length x) (cap - length o)); [reflexivity|lia]. Qed.
Lemma copy_fits cap x o : length (o ++ x) < cap -> copy cap x o = o ++ x.
Proof. unfold copy. rewrite app_length. intro H. rewrite firstn_all2 by lia. reflexivity. Qed.

Lemma len_pre (a b : str) cap : length (a ++ b) < cap -> length a < cap.
Proof. rewrite app_length. lia. Qed.

Lemma step_fits cap s ln : length (a_out (pline s ln)) < cap -> line_step cap s ln = pline s ln.
Proof.
  destruct ln as [l nl]. unfold line_step, pline. destruct (marker l) as [[[w c] r]|].
  - unfold item_step, pitem. destruct (_ && _ && _); cbn [a_out a_number a_in a_upper a_lo a_up a_blanks a_bad].
    + intro H. rewrite print_fits by exact (len_pre _ _ _ H). rewrite copy_fits by exact H. reflexivity.
    + intro H. rewrite (print_fits cap (mark_line _)) by exact (len_pre _ _ _ (len_pre _ _ _ H)). rewrite print_fits by exact (len_pre _ _ _ H). rewrite copy_fits by exact H. reflexivity.
  - unfold with_out, other_step, pother. destruct (a_in s); [|cbn [a_out]; intro H; rewrite copy_fits by exact H; reflexivity]. destruct (snd (span gap l)) as [|c p]; [cbn [a_out a_bad]; intro H; rewrite copy_fits by exact H; reflexivity|].
    destruct (isdigit c); [|cbn [a_out a_bad]; intro H; rewrite copy_fits by exact H; reflexivity]. destruct (span isdigit (c :: p)) as [ds q]. cbn [a_out a_bad a_in a_upper a_lo a_up a_number a_blanks]. destruct (_ && _ && _); intro H.
    + rewrite print_fits by exact (len_pre _ _ _ H). rewrite copy_fits by exact H. reflexivity.
    + rewrite copy_fits by exact H. reflexivity.
Qed.

Lemma fold_fits cap ls : forall s, length (a_out (fold_left pline ls s)) < cap -> fold_left (line_step cap) ls s = fold_left pline ls s.
Proof.
  induction ls as [|l ls IH]; intros s H; [reflexivity|]. cbn [fold_left] in *. destruct (plines_grow ls (pline s l)) as (x & E). rewrite step_fits; [apply IH; exact H|]. rewrite E, app_length in H. lia.
Qed.

(** ** Runs of items *)
Definition waits (s : alpha) (c : ascii) (n : nat) (o : str) : Prop :=
  a_in s = true /\ a_upper s = isupper c /\ (if isupper c then a_up s else a_lo s) = c /\ a_number s = n /\ a_blanks s <= 1 /\ a_out s = o /\ a_bad s = false.

Lemma item_in l w c r : item l w c r -> In c (lowers ++ uppers).
Proof. intros (_ & _ & H & _). exact H. Qed.

Definition nexts (c : ascii) : ascii := if isupper c then next_up c else next_lo c.

Lemma one_item s c n o l w r : waits s c n o -> item l w c r -> waits (pline s (l, true)) (nexts c) (S n) (o ++ numbered n w r ++ [NL]) /\ a_blanks (pline s (l, true)) = 0.
Proof.
  intros (A & U & E & N & K & O & Bd) I. unfold pline. rewrite (proj2 (marker_item l w c r) I). unfold pitem. destruct (next_kind c (item_in _ _ _ _ I)) as [X1 X2]. unfold nexts.
  destruct (isupper c) eqn:Uc; rewrite A, U, E, ceq_refl; cbn [Bool.eqb andb]; unfold waits; cbn [a_in a_upper a_lo a_up a_number a_blanks a_out a_bad]; rewrite X1, ?E, N, O; repeat split; try assumption; try reflexivity; try lia; unfold numbered; rewrite <- !app_assoc; reflexivity.
Qed.

Lemma first_item s c l w r : a_bad s = false -> (a_in s = true -> a_upper s = isupper c -> (if isupper c then a_up s else a_lo s) <> c) -> item l w c r ->
  waits (pline s (l, true)) (nexts c) 2 (a_out s ++ sign c ++ [NL; NL] ++ numbered 1 w r ++ [NL]) /\ a_blanks (pline s (l, true)) = 0.
Proof.
  intros Bd H I. unfold pline. rewrite (proj2 (marker_item l w c r) I). unfold pitem.
  replace (a_in s && Bool.eqb (isupper c) (a_upper s) && ceq c (if isupper c then a_up s else a_lo s)) with false.
  - cbn [a_in a_upper a_lo a_up a_number a_blanks a_out a_bad]. rewrite mark_sign.
    destruct (next_kind c (item_in _ _ _ _ I)) as [X1 X2]. unfold nexts. destruct (isupper c) eqn:Uc; cbn in X1; unfold waits; cbn [a_in a_upper a_lo a_up a_number a_blanks a_out a_bad]; rewrite X1; repeat split; try assumption; try reflexivity; try lia; unfold numbered; rewrite <- !app_assoc; reflexivity.
  - symmetry. destruct (a_in s) eqn:A; [|reflexivity]. destruct (Bool.eqb (isupper c) (a_upper s)) eqn:U; [|reflexivity]. apply Bool.eqb_prop in U. apply ceq_neq. intro X. apply (H eq_refl (eq_sym U)). symmetry. exact X.
Qed.

Lemma gap_line s c n o g : waits s c n o -> gaps g -> a_blanks s = 0 -> waits (pline s (g, true)) c n (o ++ g ++ [NL]) /\ a_blanks (pline s (g, true)) = 1.
Proof.
  intros (A & U & E & N & K & O & Bd) G Z. unfold pline. rewrite (blank_none g G). unfold pother. rewrite A. apply gaps_bool in G. rewrite (span_all gap g G). cbn [snd]. rewrite Z, O.
  unfold waits, with_out. cbn. repeat split; assumption || lia.
Qed.

Definition feed (ls : list str) (s : alpha) : alpha := fold_left pline (map (fun l => (l, true)) ls) s.

Lemma feed_app a b s : feed (a ++ b) s = feed b (feed a s).
Proof. unfold feed. now rewrite map_app, fold_left_app. Qed.

Lemma items_run c n e ls out : Items c n e ls out -> forall s o, waits s c n o -> exists m, waits (feed ls s) (nexts e) m (o ++ unlines out) /\ a_blanks (feed ls s) = 0.
Proof.
  induction 1 as [c n l w r I|c n l w r d e ls out I F _ IH|c n l w r d e g ls out I G F _ IH]; intros s o W.
  - destruct (one_item s c n o l w r W I) as [W1 Z]. exists (S n). rewrite unlines_cons. cbn [unlines map concat]. rewrite app_nil_r. split; assumption.
  - destruct (one_item s c n o l w r W I) as [W1 Z]. apply (next_follows c d (item_in _ _ _ _ I)) in F. fold (nexts c) in F. subst d. destruct (IH _ _ W1) as (m & M1 & M2). exists m. rewrite unlines_cons. rewrite <- !app_assoc in M1. split; [exact M1|exact M2].
  - destruct (one_item s c n o l w r W I) as [W1 Z]. destruct (gap_line _ _ _ _ g W1 G Z) as [W2 Z2]. apply (next_follows c d (item_in _ _ _ _ I)) in F. fold (nexts c) in F. subst d. destruct (IH _ _ W2) as (m & M1 & M2). exists m. rewrite !unlines_cons. rewrite <- !app_assoc in M1. split; [exact M1|exact M2].
Qed.

Lemma items_first c e ls out : Items c 1 e ls out -> forall s, a_bad s = false -> (a_in s = true -> a_upper s = isupper c -> (if isupper c then a_up s else a_lo s) <> c) ->
  In e (lowers ++ uppers) /\ exists m, waits (feed ls s) (nexts e) m (a_out s ++ unlines (sign c :: [] :: out)) /\ a_blanks (feed ls s) = 0.
Proof.
  intros H s Bd K. split; [clear s Bd K; induction H; [apply (item_in _ _ _ _ H)|assumption..]|].
  inversion H as [c' n' l w r I|c' n' l w r d e' ls' out' I F T|c' n' l w r d e' g ls' out' I G F T]; subst.
  - destruct (first_item s e l w r Bd K I) as [W Z]. exists 2. rewrite !unlines_cons. cbn [unlines map concat app]. split; [exact W|exact Z].
  - destruct (first_item s c l w r Bd K I) as [W Z]. apply (next_follows c d (item_in _ _ _ _ I)) in F. fold (nexts c) in F. subst d. destruct (items_run _ _ _ _ _ T _ _ W) as (m & M1 & M2). exists m. rewrite !unlines_cons. rewrite <- !app_assoc in M1. cbn [app] in M1 |- *. rewrite <- ?app_assoc in M1. rewrite <- ?app_assoc. cbn [app] in M1 |- *. rewrite <- ?app_assoc in M1. rewrite <- ?app_assoc. split; [exact M1|exact M2].
  - destruct (first_item s c l w r Bd K I) as [W Z]. destruct (gap_line _ _ _ _ g W G Z) as [W2 Z2]. apply (next_follows c d (item_in _ _ _ _ I)) in F. fold (nexts c) in F. subst d. destruct (items_run _ _ _ _ _ T _ _ W2) as (m & M1 & M2). exists m. rewrite !unlines_cons. rewrite <- !app_assoc in M1. cbn [app] in M1 |- *. rewrite <- ?app_assoc in M1. rewrite <- ?app_assoc. cbn [app] in M1 |- *. rewrite <- ?app_assoc in M1. rewrite <- ?app_assoc. split; [exact M1|exact M2].
Qed.

(** ** Other lines *)
Lemma digits_short_bound ds : Forall (fun c => isdigit c = true) ds -> (0 <= digits_value ds < 10 ^ Z.of_nat (length ds))%Z.
Proof.
  unfold digits_value. rewrite <- (rev_involutive ds). generalize (rev ds). clear ds. intros ds. induction ds as [|d ds IH]; intro F; [cbn; lia|]. cbn [rev] in *. apply Forall_app in F. destruct F as [F D]. specialize (IH F). apply Forall_inv in D. rewrite fold_left_app, app_length. cbn [fold_left length].
  assert (V : (0 <= digit_val d <= 9)%Z) by (unfold digit_val; unfold isdigit, between in D; lia). replace (Z.of_nat (length (rev ds) + 1)) with (Z.succ (Z.of_nat (length (rev ds)))) by lia. rewrite Z.pow_succ_r by lia. lia.
Qed.

Lemma digits_one ds : Forall (fun c => isdigit c = true) ds -> digits_value ds = 1%Z <-> exists z, ds = z ++ B "1" /\ Forall (fun c => c = "0"%char) z.
Proof.
  unfold digits_value. intro F. split.
  - revert F. rewrite <- (rev_involutive ds). generalize (rev ds). clear ds. intros [|d ds]; [cbn; discriminate|]. cbn [rev]. intros F E. apply Forall_app in F. destruct F as [F D]. apply Forall_inv in D. rewrite fold_left_app in E. cbn [fold_left] in E. pose proof (digits_short_bound _ F) as [V _]. unfold digits_value in V.
    assert (Vd : (0 <= digit_val d <= 9)%Z) by (unfold digit_val; unfold isdigit, between in D; lia). set (v := fold_left _ (rev ds) 0%Z) in *. assert (v = 0%Z /\ digit_val d = 1%Z) as [V0 V1] by lia. exists (rev ds). split.
    + f_equal. unfold digit_val in V1. assert (X : code d = code "1") by (change (code "1") with 49%N; lia). unfold code in X. apply (f_equal ascii_of_N) in X. rewrite !ascii_N_embedding in X. rewrite X. reflexivity.
    + clear - F V0. subst v. induction ds as [|x ds IH]; [constructor|]. cbn [rev] in *. apply Forall_app in F. destruct F as [F D]. apply Forall_inv in D. rewrite fold_left_app in V0. cbn [fold_left] in V0. pose proof (digits_short_bound _ F) as [V _]. unfold digits_value in V. assert (Vd : (0 <= digit_val x <= 9)%Z) by (unfold digit_val; unfold isdigit, between in D; lia).
      apply Forall_app. split; [apply IH; [exact F|lia]|]. constructor; [|constructor]. assert (X : code x = code "0") by (change (code "0") with 48%N; unfold digit_val in *; lia). unfold code in X. apply (f_equal ascii_of_N) in X. rewrite !ascii_N_embedding in X. exact X.
  - intros (z & -> & Z). rewrite fold_left_app. replace (fold_left _ z 0%Z) with 0%Z; [reflexivity|]. clear F. induction Z as [|x z -> Z IH]; [reflexivity|]. exact IH.
Qed.

Lemma short_ok l w ds r : short_number l -> l = w ++ ds ++ r -> gaps w -> Forall (fun c => isdigit c = true) ds -> (2147483647 <? digits_value ds)%Z = false.
Proof.
  intros S E G F. pose proof (S w ds r E G F) as K. pose proof (digits_short_bound ds F) as [_ V]. apply Z.ltb_ge. assert (10 ^ Z.of_nat (length ds) <= 10 ^ 9)%Z by (apply Z.pow_le_mono_r; lia). lia.
Qed.

Lemma quiet_line s l : a_bad s = false -> a_in s = false -> no_item l -> a_in (pline s (l, true)) = false /\ a_bad (pline s (l, true)) = false /\ a_out (pline s (l, true)) = a_out s ++ l ++ [NL].
Proof. intros Bd A N. unfold pline. rewrite (proj2 (marker_none l) N). unfold pother. rewrite A. cbn. auto. Qed.

Lemma gap_split l : gaps l \/ exists w c p, l = w ++ c :: p /\ gaps w /\ gap c = false.
Proof.
  destruct (span_shape gap l) as (F & H & E). destruct (span gap l) as [w q]. cbn [fst snd] in *. destruct q as [|c p]; [left; rewrite E, app_nil_r; apply gaps_bool; exact F|right]. exists w, c, p. split; [exact E|]. split; [apply gaps_bool; exact F|exact (H c p eq_refl)].
Qed.

Lemma ends_line s l : a_bad s = false -> a_in s = true -> short_number l -> no_item l -> ~ gaps l ->
  (a_blanks s = 0 \/ ~ one_line l -> a_out (pline s (l, true)) = a_out s ++ l ++ [NL]) /\ (0 < a_blanks s -> one_line l -> a_out (pline s (l, true)) = a_out s ++ unlines [[]; []; B " "; []; l])
  /\ a_in (pline s (l, true)) = false /\ a_bad (pline s (l, true)) = false.
Proof.
  intros Bd A Sh N G. unfold pline. rewrite (proj2 (marker_none l) N). unfold pother. rewrite A. destruct (gap_split l) as [X|(w & c & p & E & W & C)]; [contradiction|].
  pose proof W as W'. apply gaps_bool in W'. assert (Es : snd (span gap l) = c :: p) by (rewrite E, (span_pair gap w c p W' C); reflexivity). rewrite Es.
  assert (One : one_line l -> exists z r, c :: p = z ++ B "1." ++ r /\ Forall (fun c => c = "0"%char) z /\ ended r = true).
  { intros (w2 & z & r & E2 & W2 & Z & R). apply gaps_bool in W2. exists z, r. assert (Zc : exists d q, z ++ B "1." ++ r = d :: q /\ gap d = false) by (destruct z as [|d z]; [eexists _, _; split; reflexivity|inversion Z; subst; eexists _, _; split; reflexivity]). destruct Zc as (d & q & Eq & D).
    rewrite Eq in E2. assert (P : span gap l = span gap l) by reflexivity. rewrite E2 in P at 1. rewrite E in P. rewrite (span_pair gap w2 d q W2 D), (span_pair gap w c p W' C) in P. injection P as _ <- <-. split; [symmetry; exact Eq|]. split; [exact Z|]. apply ended_bool. exact R. }
  destruct (isdigit c) eqn:Dg.
  - destruct (span isdigit (c :: p)) as [ds q] eqn:Sp. destruct (span_shape isdigit (c :: p)) as (F & H & Q). rewrite Sp in F, H, Q. cbn [fst snd] in F, H, Q.
    assert (Bo : (2147483647 <? digits_value ds)%Z = false) by (apply (short_ok l w ds q Sh); [now rewrite <- Q|exact W|exact F]). rewrite Bo, Bd.
    assert (Eo : ((digits_value ds =? 1)%Z && match q with d :: q => ceq d "." && ended q | [] => false end = true) <-> one_line l).
    { rewrite Bool.andb_true_iff, Z.eqb_eq. split.
      - intros [V T]. apply (digits_one ds F) in V. destruct V as (z & -> & Z). destruct q as [|d q]; [discriminate|]. apply Bool.andb_true_iff in T. destruct T as [T1 T2]. apply ceq_eq in T1. subst d. exists w, z, q. split; [|split; [exact W|split; [exact Z|apply ended_bool; exact T2]]]. rewrite E, Q, <- app_assoc. reflexivity.
      - intro O. destruct (One O) as (z & r & Er & Z & R). assert (Fd : Forall (fun c => isdigit c = true) (z ++ B "1")) by (apply Forall_app; split; [eapply Forall_impl; [|exact Z]; intros x ->; reflexivity|repeat constructor]).
        rewrite Er in Sp. replace (z ++ B "1." ++ r) with ((z ++ B "1") ++ "."%char :: r) in Sp by (rewrite <- app_assoc; reflexivity). rewrite (span_pair isdigit _ "." r Fd eq_refl) in Sp. injection Sp as <- <-. split; [apply (digits_one _ Fd); exists z; auto|]. now rewrite ceq_refl, R. }
    destruct (Z.eqb_spec (digits_value ds) 1) as [V|V]; destruct (match q with d :: q => ceq d "." && ended q | [] => false end) eqn:T; cbn [andb] in *; cbn [with_out a_in a_bad a_out].
    + assert (O : one_line l) by (apply Eo; reflexivity). destruct (Nat.ltb_spec 0 (a_blanks s)) as [Zb|Zb]; (split; [|split; [|split; reflexivity]]).
      * intros [X|X]; [lia|contradiction].
      * intros _ _. rewrite !unlines_cons. cbn [unlines map concat app B list_ascii_of_string]. rewrite <- !app_assoc. reflexivity.
      * intros _. reflexivity.
      * intro. lia.
    + assert (O : ~ one_line l) by (intro X; apply Eo in X; discriminate). split; [|split; [|split; reflexivity]]; [intros _; reflexivity|intros _ X; contradiction].
    + assert (O : ~ one_line l) by (intro X; apply Eo in X; discriminate). split; [|split; [|split; reflexivity]]; [intros _; reflexivity|intros _ X; contradiction].
    + assert (O : ~ one_line l) by (intro X; apply Eo in X; discriminate). split; [|split; [|split; reflexivity]]; [intros _; reflexivity|intros _ X; contradiction].
  - assert (O : ~ one_line l) by (intro X; destruct (One X) as (z & r & Er & Z & _); destruct z as [|x z]; [injection Er as -> _; discriminate Dg|inversion Z; subst; injection Er as -> _; discriminate Dg]).
    cbn [with_out a_in a_bad a_out]. split; [|split; [|split; [reflexivity|exact Bd]]]; [intros _; reflexivity|intros _ X; contradiction].
Qed.

Lemma gap_step s g : a_bad s = false -> a_in s = true -> gaps g ->
  a_in (pline s (g, true)) = (S (a_blanks s) <? 2) /\ a_blanks (pline s (g, true)) = S (a_blanks s) /\ a_out (pline s (g, true)) = a_out s ++ g ++ [NL] /\ a_bad (pline s (g, true)) = false.
Proof.
  intros Bd A G. unfold pline. rewrite (blank_none g G). unfold pother. rewrite A. apply gaps_bool in G. rewrite (span_all gap g G). cbn. auto.
Qed.

Definition misses (s : alpha) (d : ascii) : Prop := a_in s = true -> a_upper s = isupper d -> (if isupper d then a_up s else a_lo s) <> d.

Definition idle (s : alpha) (ls : list str) : Prop := a_in s = false \/ a_in s = true /\
  (ls = [] \/ (exists l q, ls = l :: q /\ no_item l /\ ~ gaps l /\ (a_blanks s = 0 \/ ~ one_line l)) \/ (exists l q w d r, ls = l :: q /\ item l w d r /\ misses s d)
   \/ (exists l l' q, ls = l :: l' :: q /\ gaps l /\ gaps l' /\ a_blanks s = 0) \/ (exists l q, ls = l :: q /\ gaps l /\ a_blanks s = 1)).

Lemma gaps_no_item g : gaps g -> no_item g.
Proof. intro G. apply marker_none. exact (blank_none g G). Qed.

Lemma one_shape l : one_line l -> no_item l /\ ~ gaps l.
Proof.
  intros (w & z & r & -> & W & Z & R). apply gaps_bool in W.
  assert (K : exists d q, z ++ B "1." ++ r = d :: q /\ gap d = false /\ islower d || isupper d = false) by (destruct z as [|x z]; [eexists _, _; split; [reflexivity|split; reflexivity]|inversion Z; subst; eexists _, _; split; [reflexivity|split; reflexivity]]).
  destruct K as (d & q & -> & D & Ld). split.
  - apply marker_none. unfold marker. rewrite (span_pair gap w d q W D). rewrite Ld. destruct q; reflexivity.
  - intro G. apply gaps_bool in G. apply Forall_app in G. destruct G as [_ G]. apply Forall_inv in G. congruence.
Qed.

Lemma waits_misses s e m o d : In e (lowers ++ uppers) -> waits s (nexts e) m o -> ~ follows e d -> misses s d.
Proof.
  intros I (A & U & E & _) F _ Ud X. apply F. apply (next_follows e d I). fold (nexts e). rewrite <- Ud, U in X. rewrite E in X. symmetry. exact X.
Qed.

Lemma items_short c n e its nums : Items c n e its nums -> its <> [].
Proof. intros H. destruct H; discriminate. Qed.

Lemma lettered_feed ls out : Lettered ls out -> Forall short_number ls -> forall s, a_bad s = false -> idle s ls -> a_out (feed ls s) = a_out s ++ unlines out /\ a_bad (feed ls s) = false.
Proof.
  induction 1 as [|l ls out N H IH|c e its nums ls out It St H IH|c e its nums g ls out It G St H IH|c e its nums g l ls out It G O H IH]; intros Sh s Bd Id.
  - cbn. rewrite app_nil_r. auto.
  - inversion Sh as [|? ? Sl Sr]; subst. change (feed (l :: ls) s) with (feed ls (pline s (l, true))). rewrite unlines_cons.
    assert (Go : forall s', a_bad s' = false -> a_out s' = a_out s ++ l ++ [NL] -> idle s' ls -> a_out (feed ls s') = a_out s ++ l ++ [NL] ++ unlines out /\ a_bad (feed ls s') = false).
    { intros s' B' O' I'. destruct (IH Sr s' B' I') as [E1 E2]. rewrite E1, O', <- !app_assoc. auto. }
    destruct Id as [A|(A & Id)].
    + destruct (quiet_line s l Bd A N) as (Q1 & Q2 & Q3). apply Go; [exact Q2|exact Q3|left; exact Q1].
    + destruct Id as [E|[(l' & q & E & N' & G & K)|[(l' & q & w & d & r & E & I & _)|[(l' & l2 & q & E & G & G2 & Z)|(l' & q & E & G & Z)]]]]; [discriminate|injection E as <- E; subst ls..].
      * destruct (ends_line s l Bd A Sl N G) as (E1 & _ & E3 & E4). apply Go; [exact E4|exact (E1 K)|left; exact E3].
      * contradiction (N _ _ _ I).
      * destruct (gap_step s l Bd A G) as (G1 & G3 & G4 & G5). apply Go; [exact G5|exact G4|]. right. rewrite Z in G1, G3. split; [exact G1|]. right. right. right. right. exists l2, q. auto.
      * destruct (gap_step s l Bd A G) as (G1 & G3 & G4 & G5). apply Go; [exact G5|exact G4|]. left. rewrite Z in G1. exact G1.
  - apply Forall_app in Sh. destruct Sh as [_ Sr]. assert (K : a_in s = true -> a_upper s = isupper c -> (if isupper c then a_up s else a_lo s) <> c).
    { intro A. destruct Id as [A'|(_ & Id)]; [congruence|]. assert (Fi : exists l q w r, its = l :: q /\ item l w c r) by (inversion It; subst; eauto 8). destruct Fi as (l & q & w & r & -> & I). cbn [app] in Id.
      destruct Id as [E|[(l' & q' & E & N' & _)|[(l' & q' & w' & d & r' & E & I' & M)|[(l' & l2 & q' & E & G & _)|(l' & q' & E & G & _)]]]]; [discriminate|injection E as <- E..].
      - contradiction (N' _ _ _ I).
      - apply marker_item in I, I'. rewrite I in I'. injection I' as <- <- <-. exact (M A).
      - contradiction (gaps_no_item _ G _ _ _ I).
      - contradiction (gaps_no_item _ G _ _ _ I). }
    destruct (items_first c e its nums It s Bd K) as (Ie & m & W & Z). rewrite feed_app. pose proof W as (A' & _ & _ & _ & _ & O' & Bd'). destruct (IH Sr (feed its s) Bd') as [E1 E2].
    + right. split; [exact A'|]. destruct St as [->|[(l & q & -> & N & G)|[(l & q & w & d & r & -> & I & F)|(l & l' & q & -> & G & G')]]].
      * left. reflexivity.
      * right. left. exists l, q. auto.
      * right. right. left. exists l, q, w, d, r. split; [reflexivity|]. split; [exact I|exact (waits_misses _ _ _ _ d Ie W F)].
      * right. right. right. left. exists l, l', q. auto.
    + split; [|exact E2]. rewrite E1, O', !unlines_cons, unlines_app. cbn [app]. rewrite <- !app_assoc. reflexivity.
  - apply Forall_app in Sh. destruct Sh as [_ Sr]. inversion Sr as [|? ? Sg Sr']; subst. assert (K : a_in s = true -> a_upper s = isupper c -> (if isupper c then a_up s else a_lo s) <> c).
    { intro A. destruct Id as [A'|(_ & Id)]; [congruence|]. assert (Fi : exists l q w r, its = l :: q /\ item l w c r) by (inversion It; subst; eauto 8). destruct Fi as (l & q & w & r & -> & I). cbn [app] in Id.
      destruct Id as [E|[(l' & q' & E & N' & _)|[(l' & q' & w' & d & r' & E & I' & M)|[(l' & l2 & q' & E & Gl & _)|(l' & q' & E & Gl & _)]]]]; [discriminate|injection E as <- E..].
      - contradiction (N' _ _ _ I).
      - apply marker_item in I, I'. rewrite I in I'. injection I' as <- <- <-. exact (M A).
      - contradiction (gaps_no_item _ Gl _ _ _ I).
      - contradiction (gaps_no_item _ Gl _ _ _ I). }
    destruct (items_first c e its nums It s Bd K) as (Ie & m & W & Z). rewrite feed_app. change (feed (g :: ls) (feed its s)) with (feed ls (pline (feed its s) (g, true))). destruct (gap_line _ _ _ _ g W G Z) as [W2 Z2]. pose proof W2 as (A' & _ & _ & _ & _ & O' & Bd'). destruct (IH Sr' _ Bd') as [E1 E2].
    + right. split; [exact A'|]. destruct St as [->|[(l & q & -> & N & Gl & O)|(l & q & w & d & r & -> & I & F)]].
      * left. reflexivity.
      * right. left. exists l, q. auto.
      * right. right. left. exists l, q, w, d, r. split; [reflexivity|]. split; [exact I|exact (waits_misses _ _ _ _ d Ie W2 F)].
    + split; [|exact E2]. rewrite E1, O', !unlines_cons, unlines_app, !unlines_cons. cbn [app]. rewrite <- !app_assoc. reflexivity.
  - apply Forall_app in Sh. destruct Sh as [_ Sr]. inversion Sr as [|? ? Sg Sr']; subst. inversion Sr' as [|? ? Sl Sr2]; subst. assert (K : a_in s = true -> a_upper s = isupper c -> (if isupper c then a_up s else a_lo s) <> c).
    { intro A. destruct Id as [A'|(_ & Id)]; [congruence|]. assert (Fi : exists l q w r, its = l :: q /\ item l w c r) by (inversion It; subst; eauto 8). destruct Fi as (l0 & q & w & r & -> & I). cbn [app] in Id.
      destruct Id as [E|[(l' & q' & E & N' & _)|[(l' & q' & w' & d & r' & E & I' & M)|[(l' & l2 & q' & E & Gl & _)|(l' & q' & E & Gl & _)]]]]; [discriminate|injection E as <- E..].
      - contradiction (N' _ _ _ I).
      - apply marker_item in I, I'. rewrite I in I'. injection I' as <- <- <-. exact (M A).
      - contradiction (gaps_no_item _ Gl _ _ _ I).
      - contradiction (gaps_no_item _ Gl _ _ _ I). }
    destruct (items_first c e its nums It s Bd K) as (Ie & m & W & Z). rewrite feed_app. change (feed (g :: l :: ls) (feed its s)) with (feed ls (pline (pline (feed its s) (g, true)) (l, true))). destruct (gap_line _ _ _ _ g W G Z) as [W2 Z2]. pose proof W2 as (A' & _ & _ & _ & _ & O' & Bd').
    destruct (one_shape l O) as [N Gl]. destruct (ends_line _ l Bd' A' Sl N Gl) as (_ & E2 & E3 & E4). specialize (E2 ltac:(lia) O). destruct (IH Sr2 _ E4 ltac:(left; exact E3)) as [R1 R2]. split; [|exact R2]. rewrite R1, E2, O', !unlines_cons, unlines_app, !unlines_cons. cbn [app unlines map concat]. rewrite <- !app_assoc. cbn [app]. rewrite <- ?app_assoc. cbn [app]. rewrite <- ?app_assoc. reflexivity.
Qed.

Lemma letters_exact ls out : Forall no_nl ls -> Forall short_number ls -> Lettered ls out -> length (unlines out) < 3 * length (unlines ls) -> letters (unlines ls) = Text (unlines out).
Proof.
  intros F Sh H L. unfold letters. replace (cut_lines (unlines ls)) with (map (fun l => (l, true)) ls) by (rewrite <- (app_nil_r (unlines ls)), (cut_text ls [] F ltac:(intros [])); now rewrite app_nil_r).
  destruct (lettered_feed ls out H Sh start eq_refl ltac:(left; reflexivity)) as [E1 E2]. cbn [start a_out app] in E1. unfold feed in E1, E2.
  rewrite fold_fits by (rewrite E1; lia). rewrite E1, E2. cbn [orb]. destruct (Nat.leb_spec (length (unlines ls) * 3) (length (unlines out))); [lia|reflexivity].
Qed.

(** every list of lines has a result *)
Lemma lettered_plain ls : Forall no_item ls -> Lettered ls ls.
Proof. intro F. induction F; [constructor|apply lettered_line; assumption]. Qed.

Lemma plain_feed ls t : Forall no_item ls -> no_item t -> forall s, a_in s = false -> a_bad s = false -> let s' := fold_left pline (map (fun l => (l, true)) ls ++ match t with [] => [] | _ => [(t, false)] end) s in a_out s' = a_out s ++ unlines ls ++ t /\ a_bad s' = false.
Proof.
  intros F T. induction F as [|l ls N F IH]; intros s A Bd; cbv zeta.
  - destruct t as [|c t]; cbn [map app fold_left unlines concat]; [rewrite app_nil_r; auto|]. unfold pline. rewrite (proj2 (marker_none _) T). unfold pother. rewrite A. cbn [with_out a_out a_bad]. rewrite app_nil_r. auto.
  - cbn [map app fold_left]. destruct (quiet_line s l Bd A N) as (Q1 & Q2 & Q3). destruct (IH _ Q1 Q2) as [E1 E2]. cbv zeta in E1, E2. rewrite E1, Q3, unlines_cons, <- !app_assoc. auto.
Qed.
