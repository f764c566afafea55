(** Lemmas for separators without header and for the cells of rows. *)
From Verif Require Import Base BaseL L_Pass M_Relax S_Relax L_Relax.
From Verif Require S_Front L_Front.

(** ** Cells *)
Lemma front_white a c r : Forall (fun c => isspace c = true) a -> isspace c = false -> front (a ++ c :: r) = c :: r.
Proof. intros F C. unfold front. apply span_at; assumption. Qed.

Lemma trimmed_in a x b : S_Front.whites a -> S_Front.solid x -> S_Front.whites b -> trimmed (a ++ x ++ b) = x.
Proof.
  intros A [(c & r & Ex & C) (d & q & Ey & D)] Wb. unfold trimmed. rewrite Ex at 1. cbn [app]. rewrite (front_white a c (r ++ b) A C). change (c :: r ++ b) with ((c :: r) ++ b). rewrite <- Ex, Ey, rev_app_distr, rev_app_distr. cbn [rev app].
  rewrite front_white; [cbn [rev]; now rewrite rev_involutive| |exact D]. apply Forall_rev. exact Wb.
Qed.

Lemma inner_in a x b : S_Front.whites a -> S_Front.solid x -> S_Front.whites b -> inner (a ++ x ++ b) = rev (open_bar (rev (open_bar x))).
Proof. intros A X Wb. unfold inner. now rewrite (trimmed_in a x b A X Wb). Qed.

Lemma outside_bars l : ~ In BS l -> bars_outside false l = bars l.
Proof.
  unfold bars. induction l as [|c l IH]; intro N; [reflexivity|]. cbn [bars_outside count_occ]. rewrite (proj2 (ceq_neq c BS)) by (intros ->; apply N; left; reflexivity). rewrite IH by (intro I; apply N; right; exact I).
  destruct (ascii_dec c "|") as [->|E]; [rewrite ceq_refl; reflexivity|]. rewrite (proj2 (ceq_neq c "|") E). reflexivity.
Qed.

Lemma bars_app a b : bars (a ++ b) = bars a + bars b.
Proof. apply count_occ_app. Qed.
Lemma bars_bar l : bars ("|"%char :: l) = S (bars l).
Proof. reflexivity. Qed.
Lemma bars_other c l : c <> "|"%char -> bars (c :: l) = bars l.
Proof. intro N. unfold bars. cbn [count_occ]. destruct (ascii_dec c "|"); [contradiction|reflexivity]. Qed.
Lemma bars_white a : S_Front.whites a -> bars a = 0.
Proof. intro W. apply count_occ_not_In. intro I. unfold S_Front.whites in W. rewrite Forall_forall in W. specialize (W _ I). discriminate W. Qed.

(** the four ways a line may begin and end *)
Lemma cells_both a m b : S_Front.whites a -> S_Front.whites b -> ~ In BS m -> cells (a ++ B "|" ++ m ++ B "|" ++ b) = S (bars m).
Proof.
  intros A Wb N. unfold cells. replace (a ++ B "|" ++ m ++ B "|" ++ b) with (a ++ (B "|" ++ m ++ B "|") ++ b) by (rewrite <- !app_assoc; reflexivity). rewrite inner_in; [|exact A| |exact Wb].
  - cbn [B list_ascii_of_string app open_bar]. rewrite ceq_refl, rev_app_distr. cbn [rev app open_bar]. rewrite ceq_refl, rev_involutive. now rewrite (outside_bars m N).
  - split; [exists "|"%char, (m ++ B "|"); split; reflexivity|exists "|"%char, (B "|" ++ m); split; [rewrite <- app_assoc; reflexivity|reflexivity]].
Qed.

Lemma cells_open a m d b : S_Front.whites a -> S_Front.whites b -> ~ In BS (m ++ [d]) -> isspace d = false -> d <> "|"%char -> cells (a ++ B "|" ++ m ++ [d] ++ b) = S (bars (m ++ [d])).
Proof.
  intros A Wb N D D'. unfold cells. replace (a ++ B "|" ++ m ++ [d] ++ b) with (a ++ (B "|" ++ m ++ [d]) ++ b) by (rewrite <- !app_assoc; reflexivity). rewrite inner_in; [|exact A| |exact Wb].
  - cbn [B list_ascii_of_string app open_bar]. rewrite ceq_refl, rev_app_distr. cbn [rev app open_bar]. rewrite (proj2 (ceq_neq d "|") D'). cbn [rev]. rewrite rev_involutive. now rewrite (outside_bars _ N).
  - split; [exists "|"%char, (m ++ [d]); split; reflexivity|exists d, (B "|" ++ m); split; [rewrite <- app_assoc; reflexivity|exact D]].
Qed.

Lemma cells_close a c m b : S_Front.whites a -> S_Front.whites b -> ~ In BS (c :: m) -> isspace c = false -> c <> "|"%char -> cells (a ++ [c] ++ m ++ B "|" ++ b) = S (bars (c :: m)).
Proof.
  intros A Wb N C C'. unfold cells. replace (a ++ [c] ++ m ++ B "|" ++ b) with (a ++ (c :: m ++ B "|") ++ b) by (cbn [app]; rewrite <- !app_assoc; reflexivity). rewrite inner_in; [|exact A| |exact Wb].
  - cbn [open_bar]. rewrite (proj2 (ceq_neq c "|") C'). replace (rev (c :: m ++ B "|")) with ("|"%char :: rev (c :: m)) by (change (c :: m ++ B "|") with ((c :: m) ++ B "|"); rewrite rev_app_distr; reflexivity). cbn [open_bar]. rewrite ceq_refl, rev_involutive. now rewrite (outside_bars _ N).
  - split; [exists c, (m ++ B "|"); split; [reflexivity|exact C]|exists "|"%char, (c :: m); split; reflexivity].
Qed.

Lemma cells_bare a x b : S_Front.whites a -> S_Front.solid x -> S_Front.whites b -> ~ In BS x -> (forall r, x <> "|"%char :: r) -> (forall r, x <> r ++ ["|"%char]) -> cells (a ++ x ++ b) = S (bars x).
Proof.
  intros A X Wb N F L. unfold cells. rewrite (inner_in a x b A X Wb). replace (open_bar x) with x by (destruct x as [|c r]; [reflexivity|]; cbn [open_bar]; rewrite (proj2 (ceq_neq c "|")); [reflexivity|intros ->; exact (F r eq_refl)]).
  replace (open_bar (rev x)) with (rev x).
  - rewrite rev_involutive. now rewrite (outside_bars x N).
  - destruct (last_cases x) as [->|(q & d & ->)]; [reflexivity|]. rewrite rev_app_distr. cbn [rev app open_bar]. rewrite (proj2 (ceq_neq d "|")); [reflexivity|]. intros ->. exact (L q eq_refl).
Qed.

Lemma gaps_white a : Forall (fun c => c = SP \/ c = TAB) a -> S_Front.whites a.
Proof. intro F. eapply Forall_impl; [|exact F]. intros c [-> | ->]; reflexivity. Qed.

(** how many cells a line has *)
Lemma lead_first a c r : Forall (fun c => c = SP \/ c = TAB) a -> isspace c = false -> lead (a ++ c :: r) <-> c = "|"%char.
Proof.
  intros F C. split; [|intros ->; exists a, r; auto]. intros (a' & r' & E & F'). apply gaps_white in F. apply gaps_white in F'. pose proof (front_white a c r F C) as X. rewrite E, (front_white a' "|" r' F' eq_refl) in X. congruence.
Qed.

Lemma trail_last r d b : isspace d = false -> S_Front.whites b -> trail (r ++ d :: b) <-> d = "|"%char.
Proof.
  intros D Wb. split; [|intros ->; exists r, b; auto]. intros (r' & b' & E & F'). assert (X : front (rev (r ++ d :: b)) = front (rev (r' ++ "|"%char :: b'))) by now rewrite E.
  rewrite !rev_app_distr in X. cbn [rev] in X. rewrite <- !app_assoc in X. cbn [app] in X. rewrite !front_white in X; [congruence| |reflexivity| |exact D]; apply Forall_rev; assumption.
Qed.

Lemma line_core l : begins l -> exists a x b, l = a ++ x ++ b /\ Forall (fun c => c = SP \/ c = TAB) a /\ S_Front.solid x /\ S_Front.whites b.
Proof.
  intros (a & c & r & -> & F & C). destruct (L_Front.white_cases (c :: r)) as [W|(a' & x & b & E & A & X & Wb)].
  - inversion W as [|? ? W1 _]; subst. congruence.
  - destruct a' as [|c' a']; [exists a, x, b; rewrite E; auto|]. injection E as -> _. inversion A; subst. congruence.
Qed.


Lemma cells_trails l n : begins l -> ~ In BS l -> 0 < n -> 0 < bars l -> lead l /\ bars l = S n \/ ~ lead l /\ n = S (bars l) -> (trail l -> cells l + (if pipe_first l then 1 else 0) = bars l) /\ (~ trail l -> cells l = bars l + if pipe_first l then 0 else 1).
Proof.
  intros Bg N Np Bp H. destruct (line_core l Bg) as (a & x & b & -> & Fa & X & Wb). pose proof (gaps_white a Fa) as Wa. assert (Nx : ~ In BS x) by (intro I; apply N; apply in_or_app; right; apply in_or_app; left; exact I).
  assert (Bx : bars (a ++ x ++ b) = bars x) by (rewrite !bars_app, (bars_white a Wa), (bars_white b Wb); lia). rewrite Bx in *.
  destruct X as [(c & r & E1 & C) (d & q & E2 & D)].
  assert (Le : lead (a ++ x ++ b) <-> c = "|"%char) by (rewrite E1; cbn [app]; apply lead_first; assumption).
  assert (Tr : trail (a ++ x ++ b) <-> d = "|"%char) by (rewrite E2, <- app_assoc; cbn [app]; rewrite app_assoc; apply trail_last; assumption).
  assert (Ld : pipe_first (a ++ x ++ b) = true <-> c = "|"%char) by (rewrite lead_bool; exact Le).
  destruct (pipe_first (a ++ x ++ b)) eqn:P.
  - pose proof (proj1 Ld eq_refl) as Ec. subst c. destruct H as [[_ H]|[H _]]; [|contradiction (H (proj2 Le eq_refl))].
    assert (exists m, x = "|"%char :: m ++ [d]) as (m & Em).
    { destruct (last_cases r) as [->|(m & e & ->)]; [rewrite E1, bars_bar in H; cbn in H; lia|]. exists m. rewrite E1. f_equal. rewrite E1 in E2. change ("|"%char :: m ++ [e]) with (("|"%char :: m) ++ [e]) in E2. apply app_inj_tail in E2. now destruct E2 as [_ ->]. }
    rewrite Em in *. assert (Nm : ~ In BS (m ++ [d])) by (intro I; apply Nx; right; exact I). split.
    + intro T. apply Tr in T. subst d. replace (a ++ ("|"%char :: m ++ ["|"%char]) ++ b) with (a ++ B "|" ++ m ++ B "|" ++ b) by (cbn [app B list_ascii_of_string]; rewrite <- app_assoc; reflexivity).
      rewrite (cells_both a m b Wa Wb), bars_bar, bars_app; [cbn; lia|]. intro I. apply Nm. apply in_or_app. left. exact I.
    + intro T. assert (Nd : d <> "|"%char) by (intro; apply T, Tr; assumption). replace (a ++ ("|"%char :: m ++ [d]) ++ b) with (a ++ B "|" ++ m ++ [d] ++ b) by (cbn [app B list_ascii_of_string]; rewrite <- app_assoc; reflexivity).
      rewrite (cells_open a m d b Wa Wb Nm D Nd), bars_bar. rewrite bars_bar in H. lia.
  - assert (Nc : c <> "|"%char) by (intro E; apply Ld in E; discriminate E). split.
    + intro T. apply Tr in T. subst d. assert (exists m, x = c :: m ++ ["|"%char]) as (m & Em).
      { destruct (last_cases r) as [->|(m & e & ->)]; [rewrite E1 in E2; destruct q as [|? [|? ?]]; discriminate || (injection E2 as E2; congruence)|]. exists m. rewrite E1. f_equal. rewrite E1 in E2. change (c :: m ++ [e]) with ((c :: m) ++ [e]) in E2. apply app_inj_tail in E2. now destruct E2 as [_ ->]. }
      rewrite Em in *. replace (a ++ (c :: m ++ ["|"%char]) ++ b) with (a ++ [c] ++ m ++ B "|" ++ b) by (cbn [app B list_ascii_of_string]; rewrite <- app_assoc; reflexivity).
      rewrite (cells_close a c m b Wa Wb); [|intro I; apply Nx; destruct I as [I|I]; [left; exact I|right; apply in_or_app; left; exact I]|exact C|exact Nc]. change (c :: m ++ ["|"%char]) with ((c :: m) ++ ["|"%char]). rewrite bars_app. cbn [bars count_occ]. destruct (ascii_dec "|" "|"); [|congruence]. fold (bars (c :: m)). cbn. lia.
    + intro T. assert (Nd : d <> "|"%char) by (intro; apply T, Tr; assumption). rewrite cells_bare; [lia|exact Wa|split; [exists c, r; auto|exists d, q; auto]|exact Wb|exact Nx| |].
      * intros r' E. rewrite E1 in E. injection E as E _. contradiction.
      * intros r' E. rewrite E2 in E. apply app_inj_tail in E. destruct E as [_ E]. contradiction.
Qed.

Ltac noin I := cbn in I; repeat (destruct I as [I|I]; [discriminate I|]); destruct I.

Lemma bars_repeat x n : bars (concat (repeat x n)) = n * bars x.
Proof. induction n as [|n IH]; [reflexivity|]. cbn [repeat concat]. rewrite bars_app, IH. reflexivity. Qed.

Lemma repeat_end (x : str) n : concat (repeat x (S n)) = concat (repeat x n) ++ x.
Proof. induction n as [|n IH]; [cbn; now rewrite app_nil_r|]. transitivity (x ++ concat (repeat x (S n))); [reflexivity|]. rewrite IH at 1. rewrite app_assoc. reflexivity. Qed.

Lemma in_repeat (c : ascii) x n : In c (concat (repeat x n)) -> In c x.
Proof. induction n as [|n IH]; [intros []|]. cbn [repeat concat]. intro I. apply in_app_or in I. destruct I; auto. Qed.

Lemma sep_cells l n s : 0 < n -> sep_like l n s -> cells s = n.
Proof.
  intros N H. destruct n as [|n]; [lia|]. destruct H as [[_ ->]|[_ ->]].
  - assert (Ld : lead (B "|" ++ concat (repeat (B " --- |") (S n)))) by (exists [], (concat (repeat (B " --- |") (S n))); split; [reflexivity|constructor]).
    assert (Bn : bars (B "|" ++ concat (repeat (B " --- |") (S n))) = S (S n)) by (rewrite bars_app, bars_repeat; cbn; lia).
    destruct (cells_trails (B "|" ++ concat (repeat (B " --- |") (S n))) (S n)) as [T _].
    + exists [], "|"%char, (concat (repeat (B " --- |") (S n))). split; [reflexivity|]. split; [constructor|reflexivity].
    + intro I. apply in_app_or in I. destruct I as [I|I]; [noin I|apply in_repeat in I; noin I].
    + lia.
    + rewrite Bn. lia.
    + left. split; [exact Ld|exact Bn].
    + rewrite (proj2 (lead_bool _) Ld), Bn in T. enough (S (cells (B "|" ++ concat (repeat (B " --- |") (S n)))) = S (S n)) by lia. rewrite <- T; [lia|]. exists (B "|" ++ concat (repeat (B " --- |") n) ++ B " --- "), []. split; [|constructor]. rewrite repeat_end, <- !app_assoc. reflexivity.
  - assert (Bg : concat (repeat (B "---|") (S n)) = [] ++ "-"%char :: B "--|" ++ concat (repeat (B "---|") n)) by reflexivity.
    assert (Ld : ~ lead (concat (repeat (B "---|") (S n)))) by (rewrite Bg, lead_first; [discriminate|constructor|reflexivity]).
    assert (Bn : bars (concat (repeat (B "---|") (S n))) = S n) by (rewrite bars_repeat; cbn; lia).
    destruct (cells_trails (concat (repeat (B "---|") (S n))) (S (S n))) as [T _].
    + exists [], "-"%char, (B "--|" ++ concat (repeat (B "---|") n)). split; [exact Bg|]. split; [constructor|reflexivity].
    + intro I. apply in_repeat in I. cbn in I. intuition discriminate.
    + lia.
    + rewrite Bn. lia.
    + right. split; [exact Ld|now rewrite Bn].
    + rewrite (bool_not _ _ (lead_bool _) Ld), Bn in T. rewrite <- T at 2; [lia|]. exists (concat (repeat (B "---|") n) ++ B "---"), []. split; [|constructor]. rewrite repeat_end, <- !app_assoc. reflexivity.
Qed.

(** the cells of a header that is put before a separator *)
Lemma header_cells l h : header_for l h -> cells h = (if pipe_first l then bars l - 1 else bars l) \/ bars l = 0.
Proof.
  intros (n & N & H). destruct H as [(Ld & Bl & ->)|(Ld & Bl & ->)].
  - left. rewrite (proj2 (lead_bool _) Ld). replace (bars l - 1) with n by lia. destruct n as [|n]; [lia|]. replace (S n - 1) with n by lia. set (h := B "| " ++ concat (repeat (B " | ") n) ++ B " |").
    assert (Lh : lead h) by (exists [], (B " " ++ concat (repeat (B " | ") n) ++ B " |"); split; [reflexivity|constructor]).
    assert (Bn : bars h = S (S n)) by (subst h; rewrite !bars_app, bars_repeat; cbn; lia).
    destruct (cells_trails h (S n)) as [T _].
    + exists [], "|"%char, (B " " ++ concat (repeat (B " | ") n) ++ B " |"). split; [reflexivity|]. split; [constructor|reflexivity].
    + intro I. subst h. apply in_app_or in I. destruct I as [I|I]; [noin I|]. apply in_app_or in I. destruct I as [I|I]; [apply in_repeat in I|]; noin I.
    + lia.
    + lia.
    + left. auto.
    + rewrite (proj2 (lead_bool _) Lh), Bn in T. enough (cells h + 1 = S (S n)) by lia. apply T. exists (B "| " ++ concat (repeat (B " | ") n) ++ B " "), []. split; [|constructor]. subst h. rewrite <- !app_assoc. reflexivity.
  - rewrite (bool_not _ _ (lead_bool _) Ld). destruct (Nat.eq_dec (bars l) 0) as [Z|Z]; [right; exact Z|left]. destruct n as [|[|n]]; [lia|lia|]. replace (bars l) with (S n) by lia. set (h := concat (repeat (B " | ") (S (S n)))).
    assert (Eh : h = [SP] ++ "|"%char :: SP :: concat (repeat (B " | ") (S n))) by reflexivity.
    assert (Lh : lead h) by (exists [SP], (SP :: concat (repeat (B " | ") (S n))); split; [exact Eh|repeat constructor]).
    assert (Bn : bars h = S (S n)) by (subst h; rewrite bars_repeat; cbn; lia).
    destruct (cells_trails h (S n)) as [T _].
    + exists [SP], "|"%char, (SP :: concat (repeat (B " | ") (S n))). split; [exact Eh|]. split; [repeat constructor|reflexivity].
    + intro I. subst h. apply in_repeat in I. cbn in I. intuition discriminate.
    + lia.
    + lia.
    + left. auto.
    + rewrite (proj2 (lead_bool _) Lh), Bn in T. enough (cells h + 1 = S (S n)) by lia. apply T. exists (concat (repeat (B " | ") (S n)) ++ B " "), [SP]. split; [|repeat constructor]. subst h. rewrite (repeat_end _ (S n)), <- !app_assoc. reflexivity.
Qed.

(** ** Headers *)
Lemma says_bool l : is_row l = true <-> says l.
Proof.
  unfold is_row, says. rewrite Bool.andb_true_iff, !existsb_exists, Exists_exists. split.
  - intros [(c & I & C) (d & J & D)]. apply ceq_eq in C. subst c. split; [exact I|]. exists d. split; [exact J|]. rewrite !Bool.andb_true_iff, !Bool.negb_true_iff in D. destruct D as [[D1 D2] D3]. apply ceq_neq in D1, D3. auto.
  - intros [I (d & J & D1 & D2 & D3)]. split; [exists "|"%char; split; [exact I|apply ceq_refl]|]. exists d. split; [exact J|]. rewrite (proj2 (ceq_neq d "|") D1), (proj2 (ceq_neq d "-") D2), D3. reflexivity.
Qed.

Definition flagged (ls : list str) : list (str * bool) := map (fun l => (l, true)) ls.

Lemma follows_bool ls (t : list (str * bool)) : t = [] -> row_follows (flagged ls ++ t) = true <-> data_next ls.
Proof.
  intros ->. rewrite app_nil_r. induction ls as [|l ls IH]; cbn [flagged map row_follows].
  - split; [discriminate|]. intros (x & l & r & E & _). destruct x; discriminate.
  - fold (flagged ls). destruct (is_blank l) eqn:Bl.
    + apply blank_bool in Bl. rewrite IH. split.
      * intros (x & l' & r & -> & F & N & S). exists (l :: x), l', r. repeat split; try assumption; try apply S. constructor; assumption.
      * intros (x & l' & r & E & F & N & S). destruct x as [|l0 x]; injection E as -> ->; [contradiction|]. inversion F; subst. exists x, l', r. auto.
    + assert (N : ~ blank l) by (intro X; apply blank_bool in X; congruence). rewrite says_bool. split.
      * intro S. exists [], l, ls. repeat split; try assumption; try apply S. constructor.
      * intros (x & l' & r & E & F & _ & S). destruct x as [|l0 x]; injection E as -> ->; [exact S|]. inversion F; subst. contradiction.
Qed.

Definition header_text (l : str) : option str := match columns l with Some n => match dummy n (pipe_first l) with Some (_, x) => Some x | None => None end | None => None end.

Lemma times_mid n : B "| " ++ times n (B " | ") ++ B " |" ++ [NL] = (B "| " ++ concat (repeat (B " | ") n) ++ B " |") ++ [NL].
Proof. rewrite times_repeat, <- !app_assoc. reflexivity. Qed.

Lemma header_some l h : 0 < bars l -> header_for l h <-> header_text l = Some (h ++ [NL]).
Proof.
  intro Bl. unfold header_for, header_text, columns. rewrite pipes_bars. destruct (Nat.eqb_spec (bars l) 0); [lia|]. destruct (pipe_first l) eqn:P.
  - apply lead_bool in P. unfold dummy. destruct (Nat.ltb_spec (bars l - 1) 1) as [H|H].
    + split; [|discriminate]. intros (m & M & [(_ & X & _)|(X & _)]); [lia|contradiction].
    + rewrite times_mid. split.
      * intros (m & M & [(_ & X & ->)|(X & _)]); [|contradiction]. replace m with (bars l - 1) by lia. reflexivity.
      * intro E. injection E as E. exists (bars l - 1). split; [lia|]. left. split; [exact P|]. split; [lia|]. symmetry. exact (app_inv_tail [NL] (B "| " ++ concat (repeat (B " | ") (bars l - 1 - 1)) ++ B " |") h E).
  - assert (Np : ~ lead l) by (intro X; apply lead_bool in X; congruence). unfold dummy. destruct (Nat.ltb_spec (bars l + 1) 1); [lia|]. rewrite times_repeat. split.
    + intros (m & M & [(X & _)|(_ & X & ->)]); [contradiction|]. replace m with (bars l + 1) by lia. reflexivity.
    + intro E. injection E as E. exists (bars l + 1). split; [lia|]. right. split; [exact Np|]. split; [lia|]. apply app_inv_tail in E. symmetry. exact E.
Qed.

(** *** The pass on lists *)
Fixpoint heads (prev : bool) (ls : list (str * bool)) : str * bool :=
  match ls with
  | [] => ([], false)
  | (l, nl) :: r =>
      let (t, ch) := heads (is_row l && negb (is_sep l)) r in
      let t := l ++ (if nl then [NL] else []) ++ t in
      if is_sep l && negb prev && row_follows r then match header_text l with Some x => (x ++ t, true) | None => (t, ch) end else (t, ch)
  end.

Definition fine (L : nat) (b : buf) (out : str) : Prop := b_bad b = false /\ b_out b = out /\ length out <= b_cap b /\ 2 * L <= b_cap b /\ exists j, b_cap b = 2 ^ j * (2 * L).

Lemma grow_to_fine L out need : forall fuel b, fine L b out -> 0 < L -> 0 < fuel -> need < fuel + b_cap b -> fine L (grow_to fuel need b) out /\ need <= b_cap (grow_to fuel need b).
Proof.
  induction fuel as [|fuel IH]; intros b F Lp Fp K; [lia|]; destruct F as (A & E & C & D & j & J); cbn [grow_to]. destruct (Nat.ltb_spec (b_cap b) need) as [H|H].
  - apply IH; [|exact Lp|lia|cbn [grow b_cap]; lia]. unfold fine, grow. cbn [b_bad b_out b_cap]. split; [exact A|]. split; [exact E|]. split; [lia|]. split; [lia|]. exists (S j). cbn [Nat.pow]. lia.
  - split; [|exact H]. unfold fine. split; [exact A|]. split; [exact E|]. split; [exact C|]. split; [exact D|]. exists j. exact J.
Qed.

Lemma write_fine L b out x : fine L b out -> length out + length x <= b_cap b -> fine L (write x b) (out ++ x).
Proof.
  intros (A & E & C & D & J) K. unfold fine, write. cbn [b_bad b_out b_cap]. rewrite A, E, app_length. destruct (Nat.ltb_spec (b_cap b) (length out + length x)); [lia|]. auto.
Qed.

Lemma line_fine L b out l (nl : bool) : fine L b out -> length l + 1 <= 2 * L -> let b' := write l (if remaining b <? length l + 1 then grow b else b) in
  fine L (if nl then write [NL] b' else b') (out ++ l ++ if nl then [NL] else []).
Proof.
  intros F K. cbv zeta. set (b1 := if remaining b <? length l + 1 then grow b else b).
  assert (F1 : fine L b1 out /\ length out + length l + 1 <= b_cap b1).
  { subst b1. destruct F as (A & E & C & D & j & J). unfold remaining. rewrite E. destruct (Nat.ltb_spec (b_cap b - length out) (length l + 1)) as [H|H].
    - unfold fine, grow. cbn [b_bad b_out b_cap]. split; [|lia]. split; [exact A|]. split; [exact E|]. split; [lia|]. split; [lia|]. exists (S j). cbn [Nat.pow]. lia.
    - split; [|lia]. unfold fine. split; [exact A|]. split; [exact E|]. split; [exact C|]. split; [exact D|]. exists j. exact J. }
  destruct F1 as [F1 K1]. clearbody b1. pose proof (write_fine L b1 out l F1 ltac:(lia)) as F2. destruct nl; [|rewrite app_nil_r; exact F2].
  rewrite app_assoc. apply write_fine; [exact F2|]. unfold write. cbn [b_cap]. rewrite app_length. cbn [length]. lia.
Qed.

Lemma dummy_length n p size x : dummy n p = Some (size, x) -> length x + 1 <= size.
Proof.
  unfold dummy. destruct (Nat.ltb_spec n 1); [discriminate|]. intro E. destruct p; injection E as <- <-; cbn [length]; repeat rewrite app_length; rewrite times_length; cbn [length]; lia.
Qed.

Lemma headers_fine L ls : forall prev b out ch, 0 < L -> fine L b out -> Forall (fun p => length (fst p) + 1 <= 2 * L) ls ->
  fine L (fst (headers prev ls b ch)) (out ++ fst (heads prev ls)) /\ snd (headers prev ls b ch) = ch || snd (heads prev ls).
Proof.
  induction ls as [|[l nl] r IH]; intros prev b out ch Lp F Fl.
  - cbn. rewrite app_nil_r, Bool.orb_false_r. auto.
  - inversion Fl as [|? ? K Fr]; subst. cbn [fst] in K. cbn [headers heads]. destruct (heads (is_row l && negb (is_sep l)) r) as [t c2] eqn:Eh.
    assert (Rest : forall b1 out1 ch1, fine L b1 out1 ->
      fine L (fst (headers (is_row l && negb (is_sep l)) r (if nl then write [NL] (write l (if remaining b1 <? length l + 1 then grow b1 else b1)) else write l (if remaining b1 <? length l + 1 then grow b1 else b1)) ch1)) (out1 ++ l ++ (if nl then [NL] else []) ++ t)
      /\ snd (headers (is_row l && negb (is_sep l)) r (if nl then write [NL] (write l (if remaining b1 <? length l + 1 then grow b1 else b1)) else write l (if remaining b1 <? length l + 1 then grow b1 else b1)) ch1) = ch1 || c2).
    { intros b1 out1 ch1 F1. pose proof (line_fine L b1 out1 l nl F1 K) as F2. cbv zeta in F2. destruct (IH (is_row l && negb (is_sep l)) _ _ ch1 Lp F2 Fr) as [I1 I2]. rewrite Eh in I1, I2. cbn [fst snd] in I1, I2. rewrite <- !app_assoc in I1. auto. }
    destruct (is_sep l && negb prev && row_follows r); [|exact (Rest b out ch F)]. unfold header_text. destruct (columns l) as [n|]; [|exact (Rest b out ch F)]. destruct (dummy n (pipe_first l)) as [[size x]|] eqn:Ed; [|exact (Rest b out ch F)].
    pose proof (dummy_length _ _ _ _ Ed) as Dl. destruct (Nat.ltb_spec size (length x + 1)); [lia|]. destruct F as (A & E & C & D & J). assert (F : fine L b out) by (unfold fine; auto). rewrite E.
    set (need := length out + length x + length l + 10). destruct (grow_to_fine L out need (S need) b F Lp ltac:(lia) ltac:(lia)) as [F1 N1]. pose proof (write_fine L _ out x F1 ltac:(lia)) as F2.
    destruct (Rest _ _ true F2) as [R1 R2]. cbn [fst snd]. rewrite <- app_assoc in R1. split; [exact R1|]. rewrite R2. cbn [orb]. now rewrite Bool.orb_true_r.
Qed.

Lemma cut_lengths s : Forall (fun p => length (fst p) <= length s) (cut_lines s).
Proof.
  induction s as [|c s IH]; cbn [cut_lines]; [constructor|]. assert (IH' : Forall (fun p => length (fst p) <= length (c :: s)) (cut_lines s)) by (eapply Forall_impl; [|exact IH]; intros p; cbn [length]; lia).
  destruct (ceq c NL); [constructor; [cbn; lia|exact IH']|]. destruct (cut_lines s) as [|[l b] t]; [constructor; [cbn; lia|constructor]|]. pose proof (Forall_inv IH) as H1. pose proof (Forall_inv_tail IH') as H2. constructor; [cbn [fst length] in *; lia|exact H2].
Qed.

Lemma headerless_exact text : text <> [] -> let t := heads false (cut_lines text) in
  exists j, headerless text = if length (fst t) =? 2 ^ j * (2 * length text) then Same else if negb (snd t) && (length text =? length (fst t)) then Same else if seq_ text (fst t) then Same else Out (fst t).
Proof.
  intros N t. set (L := length text). assert (Lp : 0 < L) by (subst L; destruct text; [congruence|cbn; lia]).
  destruct (headers_fine L (cut_lines text) false (Buf (length text * 2) [] false) [] false Lp) as [F C].
  - unfold fine. cbn [b_bad b_out b_cap length]. split; [reflexivity|]. split; [reflexivity|]. split; [lia|]. split; [fold L; lia|]. exists 0. cbn [Nat.pow]. fold L. lia.
  - eapply Forall_impl; [|apply cut_lengths]. intros p H. cbv beta in *. fold L in H. lia.
  - cbn [orb app] in *. fold t in F, C. replace (headerless text) with (let (b, ch) := headers false (cut_lines text) (Buf (length text * 2) [] false) false in
      if b_bad b then Bad else if remaining b =? 0 then Same else if negb ch && (length text =? length (b_out b)) then Same else if (length text =? length (b_out b)) && seq_ text (b_out b) then Same else Out (b_out b)) by (destruct text; [congruence|reflexivity]).
    destruct (headers _ _ _ _) as [b ch]. cbn [fst snd] in *. subst ch. destruct F as (A & E & Cc & D & j & J). exists j. rewrite A, E. unfold remaining. rewrite E, <- J.
    destruct (Nat.eqb_spec (length (fst t)) (b_cap b)); destruct (Nat.eqb_spec (b_cap b - length (fst t)) 0); try lia; [reflexivity|]. destruct (negb _ && _); [reflexivity|].
    destruct (seq_ text (fst t)) eqn:Q; [|now rewrite Bool.andb_false_r]. apply seq_eq in Q. rewrite Q, Nat.eqb_refl. reflexivity.
Qed.

(** lists of lines *)
Fixpoint head_lines (prev : bool) (ls : list str) : list str :=
  match ls with
  | [] => []
  | l :: r =>
      let t := l :: head_lines (is_row l && negb (is_sep l)) r in
      if is_sep l && negb prev && row_follows (flagged r) then match header_text l with Some x => removelast x :: t | None => t end else t
  end.

Lemma header_text_end l x : header_text l = Some x -> x = removelast x ++ [NL].
Proof.
  unfold header_text, dummy. destruct (columns l) as [n|]; [|discriminate]. destruct (n <? 1); [discriminate|]. intro E.
  assert (X : exists y, x = y ++ [NL]) by (destruct (pipe_first l); injection E as <-; [exists (B "| " ++ times (n - 1) (B " | ") ++ B " |"); rewrite <- !app_assoc; reflexivity|exists (times n (B " | ")); reflexivity]). destruct X as (y & ->). now rewrite removelast_last.
Qed.

Lemma heads_lines ls : forall prev, heads prev (flagged ls) = (unlines (head_lines prev ls), snd (heads prev (flagged ls))) /\ (snd (heads prev (flagged ls)) = false -> head_lines prev ls = ls).
Proof.
  induction ls as [|l r IH]; intro prev; [split; reflexivity|]. cbn [flagged map heads head_lines]. fold (flagged r). destruct (IH (is_row l && negb (is_sep l))) as [I1 I2]. destruct (heads _ (flagged r)) as [t ch]. cbn [snd] in I1, I2. injection I1 as ->.
  assert (Plain : (l ++ [NL] ++ unlines (head_lines (is_row l && negb (is_sep l)) r), ch) = (unlines (l :: head_lines (is_row l && negb (is_sep l)) r), ch) /\ (ch = false -> l :: head_lines (is_row l && negb (is_sep l)) r = l :: r)) by (rewrite unlines_cons; split; [reflexivity|intro E; now rewrite (I2 E)]).
  destruct (is_sep l && negb prev && row_follows (flagged r)); [|exact Plain]. destruct (header_text l) as [x|] eqn:H; [|exact Plain]. cbn [snd]. split; [|discriminate]. rewrite (unlines_cons (removelast x)), (unlines_cons l). rewrite (header_text_end l x H) at 1. rewrite <- !app_assoc. reflexivity.
Qed.

Lemma is_says_sep l (p : bool) : p = is_row l && negb (is_sep l) <-> (p = true <-> says l /\ ~ sep_line l).
Proof.
  assert (X : is_row l && negb (is_sep l) = true <-> says l /\ ~ sep_line l).
  { rewrite Bool.andb_true_iff, Bool.negb_true_iff, says_bool. split; intros [A C]; (split; [exact A|]).
    - intro S. apply sep_bool in S. congruence.
    - apply (bool_not _ _ (sep_bool l) C). }
  split; [intros ->; exact X|]. intro H. destruct p, (is_row l && negb (is_sep l)) eqn:E; try reflexivity; exfalso.
  - assert (T : false = true) by (apply X, H; reflexivity). discriminate T.
  - assert (T : false = true) by (apply H, X; reflexivity). discriminate T.
Qed.

Lemma headed_lines ls : forall prev, Headed prev ls (head_lines prev ls).
Proof.
  induction ls as [|l r IH]; intro prev; [constructor|]. cbn [head_lines]. pose proof (proj1 (is_says_sep l _) eq_refl) as Sy.
  assert (Fo := follows_bool r [] eq_refl). rewrite app_nil_r in Fo.
  destruct (is_sep l) eqn:S; cbn [andb].
  - assert (Sl := proj1 (sep_bool l) S). assert (Bl : 0 < bars l) by (apply bars_in; apply Sl). rewrite ?Bool.andb_false_r in *. destruct prev; cbn [negb andb].
    + apply headed_keep with (p' := false); [exact Sy|left; reflexivity|apply IH].
    + destruct (row_follows (flagged r)) eqn:Fr.
      * destruct (header_text l) as [x|] eqn:H.
        -- apply headed_new with (p' := false); [exact Sy|exact Sl|now apply Fo| |apply IH]. apply (header_some l _ Bl). rewrite <- (header_text_end l x H). exact H.
        -- apply headed_keep with (p' := false); [exact Sy| |apply IH]. intros _. right. right. intros h Hh. apply (header_some l h Bl) in Hh. congruence.
      * apply headed_keep with (p' := false); [exact Sy| |apply IH]. intros _. right. left. intro D. apply Fo in D. congruence.
  - apply headed_keep with (p' := is_row l && negb false); [exact Sy| |apply IH]. intro X. apply sep_bool in X. congruence.
Qed.

Lemma headed_unique ls : forall prev out, Headed prev ls out -> out = head_lines prev ls.
Proof.
  intros prev out H. induction H as [p|p p' l r out Sy K H IH|p' l h r out Sy S D Hh H IH]; [reflexivity| |]; cbn [head_lines]; apply is_says_sep in Sy; rewrite Sy in IH; rewrite IH; assert (Fo := follows_bool r [] eq_refl); rewrite app_nil_r in Fo.
  - destruct (is_sep l) eqn:S; cbn [andb]; [|reflexivity]. apply sep_bool in S. assert (Bl : 0 < bars l) by (apply bars_in; apply S). specialize (K S). destruct p; cbn [negb andb]; [reflexivity|]. destruct (row_follows (flagged r)) eqn:Fr; [|reflexivity].
    destruct (header_text l) as [x|] eqn:Hx; [|reflexivity]. exfalso. destruct K as [K|[K|K]]; [discriminate|apply K; now apply Fo|]. apply (K (removelast x)). apply (header_some l _ Bl). rewrite <- (header_text_end l x Hx). exact Hx.
  - assert (Bl : 0 < bars l) by (apply bars_in; apply S). apply sep_bool in S. rewrite S. cbn [negb andb]. rewrite (proj2 Fo D). apply (header_some l h Bl) in Hh. rewrite Hh, removelast_last. reflexivity.
Qed.

Lemma stage_headed ls out : Forall no_nl ls -> ls <> [] -> Headed false ls out ->
  stage headerless (unlines ls) = Some (unlines out) \/ stage headerless (unlines ls) = Some (unlines ls) /\ exists j, length (unlines out) = 2 ^ j * (2 * length (unlines ls)).
Proof.
  intros F N H. apply headed_unique in H. subst out. unfold stage. rewrite closed_lines. assert (Nt : unlines ls <> []) by (destruct ls as [|[|c l] ls]; [congruence|discriminate..]).
  destruct (headerless_exact _ Nt) as (j & E). replace (cut_lines (unlines ls)) with (flagged ls) in E by (rewrite <- (app_nil_r (unlines ls)), (cut_text ls [] F ltac:(intros [])); now rewrite app_nil_r).
  destruct (heads_lines ls false) as [E1 E2]. rewrite E1 in E. cbn [fst snd] in E. rewrite E. destruct (Nat.eqb_spec (length (unlines (head_lines false ls))) (2 ^ j * (2 * length (unlines ls)))) as [X|X]; [right; split; [reflexivity|exists j; exact X]|left].
  destruct (snd (heads false (flagged ls))); cbn [negb andb].
  - destruct (seq_ _ _) eqn:Q; [apply seq_eq in Q; now rewrite Q|reflexivity].
  - rewrite (E2 eq_refl), Nat.eqb_refl. reflexivity.
Qed.

Lemma headerless_safe text : headerless text <> Bad.
Proof.
  destruct text as [|c s] eqn:E; [discriminate|]. destruct (headerless_exact (c :: s) ltac:(discriminate)) as (j & H). rewrite H. destruct (_ =? _); [discriminate|]. destruct (_ && _); [discriminate|]. destruct (seq_ _ _); discriminate.
Qed.

Lemma trail_dec l : trail l \/ ~ trail l.
Proof.
  destruct (L_Front.white_cases l) as [W|(a & x & b & -> & A & X & Wb)].
  - right. intros (r & b & -> & _). apply Forall_app in W. destruct W as [_ W]. inversion W; subst. discriminate.
  - destruct X as [_ (d & q & -> & D)]. destruct (ascii_dec d "|"%char) as [->|Nd].
    + left. exists (a ++ q), b. split; [|exact Wb]. now rewrite <- !app_assoc.
    + right. intros T. replace (a ++ (q ++ [d]) ++ b) with ((a ++ q) ++ d :: b) in T by now rewrite <- !app_assoc. apply (trail_last _ _ _ D Wb) in T. contradiction.
Qed.
