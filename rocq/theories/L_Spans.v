(** Lemmas on adjacent bars. *)
From Verif Require Import Base BaseL L_Pass M_Relax L_Relax M_Spans S_Spans.

(** ** Lines *)
Lemma nl_cr : ceq CR NL = false. Proof. reflexivity. Qed.

Lemma cut_shape s : Lines (cut_ends s) /\ join (cut_ends s) = s.
Proof.
  remember (length s) as n eqn:E. assert (L : length s <= n) by lia. clear E. revert s L. induction n as [|n IH]; intros s L.
  - destruct s; [|cbn in L; lia]. split; [constructor|reflexivity].
  - destruct s as [|c r]; [split; [constructor|reflexivity]|]. cbn [length] in L. cbn [cut_ends]. destruct (ceq c NL) eqn:En.
    + apply ceq_eq in En. subst c. destruct (IH r ltac:(lia)) as [A C]. split; [apply lines_nl; [split; intros []|exact A]|]. unfold join in *. cbn [map concat fst snd app]. now rewrite C.
    + destruct (ceq c CR) eqn:Ec.
      * apply ceq_eq in Ec. subst c. destruct r as [|d r'].
        -- split; [apply lines_cr; [split; intros []|discriminate|constructor]|reflexivity].
        -- cbn [length] in L. destruct (ceq d NL) eqn:Ed.
           ++ apply ceq_eq in Ed. subst d. destruct (IH r' ltac:(lia)) as [A C]. split; [apply lines_crlf; [split; intros []|exact A]|]. unfold join in *. cbn [map concat fst snd app]. now rewrite C.
           ++ destruct (IH (d :: r') ltac:(cbn; lia)) as [A C]. split; [|unfold join in *; cbn [map concat fst snd app]; now rewrite C].
              apply lines_cr; [split; intros []| |exact A]. intros e q X. rewrite X in C. unfold join in C. cbn in C. injection C as C _. subst d. discriminate Ed.
      * destruct (IH r ltac:(lia)) as [A C]. apply ceq_neq in En, Ec. destruct (cut_ends r) as [|[l e] t].
        -- unfold join in C. cbn in C. subst r. split; [|reflexivity]. apply lines_last; [|discriminate]. split; intros [X|[]]; congruence.
        -- split; [|unfold join in *; cbn [map concat fst snd app] in *; now rewrite C].
           assert (K : forall l0, line_text l0 -> line_text (c :: l0)) by (intros l0 [X Y]; split; intros [Z|Z]; auto).
           inversion A; subst; [apply lines_last; [auto|discriminate]|apply lines_nl; auto|apply lines_crlf; auto|apply lines_cr; auto].
Qed.

Lemma cut_front l e s : line_text l -> cut_ends s = ([], e) :: cut_ends (skipn (length e) s) -> cut_ends (l ++ s) = (l, e) :: cut_ends (skipn (length e) s).
Proof.
  intros [N C] H. induction l as [|c l IH]; [exact H|]. cbn [app cut_ends].
  assert (En : ceq c NL = false) by (apply ceq_neq; intros ->; apply N; now left). assert (Ec : ceq c CR = false) by (apply ceq_neq; intros ->; apply C; now left).
  rewrite En, Ec, IH; [reflexivity|intro; apply N; now right|intro; apply C; now right].
Qed.

Lemma cut_join ls : Lines ls -> cut_ends (join ls) = ls.
Proof.
  intro H. induction H as [|l T N|l ls T H IH|l ls T H IH|l ls T C H IH].
  - reflexivity.
  - unfold join. cbn [map concat fst snd]. rewrite !app_nil_r. destruct T as [Nn Nc]. clear -N Nn Nc. induction l as [|c l IH]; [congruence|]. cbn [cut_ends].
    assert (En : ceq c NL = false) by (apply ceq_neq; intros ->; apply Nn; now left). assert (Ec : ceq c CR = false) by (apply ceq_neq; intros ->; apply Nc; now left). rewrite En, Ec.
    destruct l as [|d l]; [reflexivity|]. rewrite IH; try reflexivity; try discriminate; intro; [apply Nn; now right|apply Nc; now right].
  - unfold join in *. cbn [map concat fst snd]. rewrite <- app_assoc. rewrite (cut_front l [NL] ([NL] ++ _) T); [cbn [length skipn app]; now rewrite IH|reflexivity].
  - unfold join in *. cbn [map concat fst snd]. rewrite <- app_assoc. rewrite (cut_front l [CR; NL] ([CR; NL] ++ _) T); [cbn [length skipn app]; now rewrite IH|reflexivity].
  - unfold join in *. cbn [map concat fst snd]. rewrite <- app_assoc. rewrite (cut_front l [CR] ([CR] ++ _) T); [cbn [length skipn app]; now rewrite IH|]. cbn [app length skipn cut_ends]. rewrite nl_cr. change (ceq CR CR) with true. cbv iota.
    destruct (concat (map (fun p : str * str => fst p ++ snd p) ls)) as [|d q] eqn:E; [reflexivity|]. destruct (ceq d NL) eqn:Ed; [|reflexivity]. exfalso. apply ceq_eq in Ed. subst d.
    rewrite <- IH in C. cbn [cut_ends] in C. change (ceq NL NL) with true in C. exact (C [] _ eq_refl).
Qed.

(** ** Buffers *)
Definition good (b : buf) : Prop := b_bad b = false /\ length (b_out b) <= b_cap b.

Lemma write_good x b : good b -> length x <= remaining b -> good (write x b) /\ b_out (write x b) = b_out b ++ x /\ remaining (write x b) = remaining b - length x.
Proof.
  unfold good, write, remaining. destruct b as [c o d]. cbn [b_bad b_out b_cap]. intros [-> L] R. cbn [orb]. split; [split; [apply Nat.ltb_ge; lia|rewrite app_length; lia]|split; [reflexivity|rewrite app_length; lia]].
Qed.

Lemma resize_good n b : good b -> length (b_out b) <= n -> good (resize n b) /\ b_out (resize n b) = b_out b /\ remaining (resize n b) = n - length (b_out b).
Proof. destruct b as [c o d]. unfold good, resize, remaining. cbn. intros [-> L] R. auto. Qed.

Lemma room_good n b : good b -> 2 <= n -> good (room n b) /\ b_out (room n b) = b_out b /\ 5 <= remaining (room n b).
Proof.
  intros G N. unfold room. destruct (Nat.ltb_spec (remaining b) 5) as [L|L]; [|auto].
  destruct (resize_good ((length (b_out b) + n * 2 + 1) * 2) b G ltac:(lia)) as (A & C & D). rewrite D. split; [exact A|]. split; [exact C|lia].
Qed.

Lemma marks_good k : forall n b, good b -> 2 <= n -> good (marks k n b) /\ b_out (marks k n b) = b_out b ++ concat (repeat (B " << |") k).
Proof.
  induction k as [|k IH]; intros n b G N; cbn [marks repeat concat]; [now rewrite app_nil_r|].
  destruct (room_good n b G N) as (G1 & O1 & R1). destruct (write_good (B " << |") _ G1 R1) as (G2 & O2 & _). destruct (IH n _ G2 N) as [G3 O3]. split; [exact G3|]. rewrite O3, O2, O1. now rewrite <- app_assoc.
Qed.

Lemma copy1_good c n b : good b -> 1 <= n -> good (copy1 c n b) /\ b_out (copy1 c n b) = b_out b ++ [c].
Proof.
  intros G N. unfold copy1. destruct (Nat.ltb_spec 0 (remaining b)) as [L|L].
  - destruct (write_good [c] b G L) as (A & C & _). auto.
  - destruct (resize_good ((length (b_out b) + n + 1) * 2) b G ltac:(lia)) as (A & C & D). destruct (write_good [c] _ A ltac:(rewrite D; cbn; lia)) as (E & F & _). split; [exact E|]. now rewrite F, C.
Qed.

Lemma plain_good l b : good b -> good (plain l b) /\ b_out (plain l b) = b_out b ++ l.
Proof.
  intro G. unfold plain. destruct (Nat.ltb_spec (remaining b) (length l)) as [L|L].
  - destruct (resize_good ((length (b_out b) + length l + 1) * 2) b G ltac:(lia)) as (A & C & D). destruct (write_good l _ A ltac:(rewrite D; lia)) as (E & F & _). split; [exact E|]. now rewrite F, C.
  - destruct (write_good l b G L) as (A & C & _). auto.
Qed.

Lemma eol_good e b : good b -> length e <= 2 -> good (eol e b) /\ b_out (eol e b) = b_out b ++ e /\ (e <> [] -> 1 <= remaining (eol e b)).
Proof.
  intros G L. unfold eol. destruct e as [|c e]; [rewrite app_nil_r; repeat split; try apply G; congruence|]. destruct (Nat.ltb_spec 2 (remaining b)) as [R|R].
  - destruct (write_good (c :: e) b G ltac:(lia)) as (A & C & D). rewrite D. split; [exact A|]. split; [exact C|intros _; lia].
  - destruct (resize_good ((length (b_out b) + 10) * 2) b G ltac:(lia)) as (A & C & D). destruct (write_good (c :: e) _ A ltac:(rewrite D; lia)) as (E & F & H). rewrite H, D. split; [exact E|]. split; [now rewrite F, C|intros _; lia].
Qed.

(** ** Rows *)
Definition bars_of (k : nat) : str := repeat "|"%char k.
Lemma spread_bars k q : (forall c r, q = c :: r -> c <> "|"%char) -> spread (bars_of (S k) ++ q) = B "|" ++ concat (repeat (B " << |") k) ++ spread q.
Proof.
  intro Q. induction k as [|k IH].
  - cbn [bars_of repeat app spread concat B list_ascii_of_string]. destruct q as [|d q]; [reflexivity|]. destruct (ascii_dec "|" "|"); [|congruence]. destruct (ascii_dec d "|") as [->|_]; [exfalso; exact (Q _ _ eq_refl eq_refl)|reflexivity].
  - change (bars_of (S (S k)) ++ q) with ("|"%char :: (bars_of (S k) ++ q)). assert (E : forall x, spread ("|"%char :: (bars_of (S k) ++ x)) = "|"%char :: B " << " ++ spread (bars_of (S k) ++ x)) by (intro x; reflexivity).
    rewrite E, IH. cbn [repeat concat app B list_ascii_of_string]. reflexivity.
Qed.

Lemma span_bars s : exists k q, span (fun c => ceq c "|") s = (bars_of k, q) /\ s = bars_of k ++ q /\ forall c r, q = c :: r -> c <> "|"%char.
Proof.
  induction s as [|c s (k & q & E & S & Q)]; [exists 0, []; repeat split; discriminate|]. cbn [span]. destruct (ceq c "|") eqn:C.
  - apply ceq_eq in C. subst c. rewrite E. exists (Datatypes.S k), q. repeat split; [now rewrite S|exact Q].
  - exists 0, (c :: s). repeat split. intros d r X. injection X as <- _. now apply ceq_neq.
Qed.

Lemma row_good fuel : forall s b, good b -> length s <= fuel -> good (row fuel s b) /\ b_out (row fuel s b) = b_out b ++ spread s.
Proof.
  induction fuel as [|fuel IH]; intros s b G L; (destruct s as [|c r]; [split; [exact G|now rewrite app_nil_r]|cbn [length] in L; try lia]). cbn [row].
  assert (One : forall b', b' = copy1 c (length (c :: r)) b -> spread (c :: r) = c :: spread r -> good (row fuel r b') /\ b_out (row fuel r b') = b_out b ++ spread (c :: r)).
  { intros b' -> Sp. destruct (copy1_good c (length (c :: r)) b G ltac:(cbn; lia)) as [A C]. destruct (IH r _ A ltac:(lia)) as [D E]. split; [exact D|]. rewrite E, C, Sp. now rewrite <- app_assoc. }
  destruct (ceq c "|") eqn:C.
  - apply ceq_eq in C. subst c. destruct (span_bars r) as (k & q & E & S & Q). rewrite E. destruct k as [|k].
    + cbn [bars_of repeat]. apply (One _ eq_refl). cbn [bars_of repeat app] in S. subst q. cbn [spread]. destruct r as [|d r]; [reflexivity|]. destruct (ascii_dec "|" "|"); [|congruence]. destruct (ascii_dec d "|") as [->|_]; [exfalso; exact (Q _ _ eq_refl eq_refl)|reflexivity].
    + change (match bars_of (Datatypes.S k) with [] => row fuel r (copy1 "|" (length ("|"%char :: r)) b) | _ :: _ => row fuel q (marks (length (bars_of (Datatypes.S k))) (length ("|"%char :: r)) (write (B "|") (room (length ("|"%char :: r)) b))) end)
        with (row fuel q (marks (length (bars_of (Datatypes.S k))) (length ("|"%char :: r)) (write (B "|") (room (length ("|"%char :: r)) b)))).
      assert (N : 2 <= length ("|"%char :: r)) by (rewrite S; cbn; lia). assert (Lb : length (bars_of (Datatypes.S k)) = Datatypes.S k) by apply repeat_length. rewrite Lb.
      destruct (room_good _ b G N) as (G1 & O1 & R1). destruct (write_good (B "|") _ G1 ltac:(change (length (B "|")) with 1; lia)) as (G2 & O2 & _). destruct (marks_good (Datatypes.S k) _ _ G2 N) as [G3 O3].
      destruct (IH q _ G3 ltac:(rewrite S, app_length in L; lia)) as [G4 O4]. split; [exact G4|]. rewrite O4, O3, O2, O1, S. change ("|"%char :: bars_of (Datatypes.S k) ++ q) with (bars_of (Datatypes.S (Datatypes.S k)) ++ q). rewrite spread_bars by exact Q. now rewrite <- !app_assoc.
  - apply (One _ eq_refl). apply ceq_neq in C. cbn [spread]. destruct r as [|d r]; [reflexivity|]. destruct (ascii_dec c "|"); [congruence|reflexivity].
Qed.

Lemma spread_none l : ~ In "|"%char l -> spread l = l.
Proof.
  induction l as [|c l IH]; [reflexivity|]. intro N. cbn [spread]. destruct l as [|d l]; [reflexivity|]. destruct (ascii_dec c "|") as [->|_]; [exfalso; apply N; now left|]. rewrite IH; [reflexivity|]. intro I. apply N. now right.
Qed.

Lemma fence_bool l : fence l = true <-> fence_line l.
Proof.
  unfold fence, fence_line. split.
  - intro H. destruct (span gap l) as [w p] eqn:E. destruct (span_shape gap l) as (W & _ & S). rewrite E in W, S. cbn [fst snd] in W, S, H. apply Bool.orb_true_iff in H.
    assert (Wg : Forall (fun c => c = SP \/ c = TAB) w). { apply Forall_forall. intros c I. apply gap_spec. rewrite Forall_forall in W. now apply W. }
    destruct H as [H|H]; apply starts_spec in H; destruct H as (r & ->); eexists w, _, r; split; try exact S; auto.
  - intros (w & f & r & -> & W & F). assert (E : span gap (w ++ f ++ r) = (w, f ++ r)).
    { clear -W F. induction W as [|c w C W IH]; [destruct F as [-> | ->]; reflexivity|]. cbn [app span]. rewrite (proj2 (gap_spec c) C), IH. reflexivity. }
    rewrite E. cbn [snd]. destruct F as [-> | ->]; [rewrite starts_app; reflexivity|]. rewrite (starts_app (B "~~~") r). apply Bool.orb_true_r.
Qed.

(** ** All lines *)
Definition turned (code : bool) (p : str * str) : str * str := (if xorb code (fence (fst p)) then fst p else spread (fst p), snd p).
Fixpoint turn (code : bool) (ls : list (str * str)) : list (str * str) :=
  match ls with [] => [] | p :: ls => turned code p :: turn (xorb code (fence (fst p))) ls end.

Lemma spread_turn ls : forall c out, Spread c ls out <-> out = turn c ls.
Proof.
  intros c out. split.
  - intro H. induction H as [|l e ls out F H ->|l e ls out F H ->|l e ls out F H ->|l e ls out F H ->]; [reflexivity| | | |]; cbn [turn turned fst snd].
    + rewrite <- fence_bool in F. apply Bool.not_true_is_false in F. unfold turned. cbn [fst snd]. now rewrite F.
    + apply fence_bool in F. unfold turned. cbn [fst snd]. now rewrite F.
    + apply fence_bool in F. unfold turned. cbn [fst snd]. now rewrite F.
    + rewrite <- fence_bool in F. apply Bool.not_true_is_false in F. unfold turned. cbn [fst snd]. now rewrite F.
  - intros ->. revert c. induction ls as [|[l e] ls IH]; intro c; [constructor|]. cbn [turn fst]. unfold turned. cbn [fst snd]. destruct (fence l) eqn:F.
    + destruct c; cbn [xorb]; [apply spread_close|apply spread_open]; try (now apply fence_bool); apply IH.
    + assert (N : ~ fence_line l) by (intro X; apply fence_bool in X; congruence). destruct c; cbn [xorb]; [apply spread_in|apply spread_out]; try exact N; apply IH.
Qed.

Lemma line_good p code b : good b -> length (snd p) <= 2 -> exists b', line (code, b) p = (xorb code (fence (fst p)), b') /\ good b' /\ b_out b' = b_out b ++ fst (turned code p) ++ snd p /\ (snd p <> [] -> 1 <= remaining b').
Proof.
  destruct p as [l e]. intros G L. cbn [fst snd] in *. unfold line, turned. cbn [fst snd]. eexists. split; [reflexivity|].
  assert (K : exists b', (if negb (xorb code (fence l)) && existsb (fun c => ceq c "|") l then row (length l) l b else plain l b) = b' /\ good b' /\ b_out b' = b_out b ++ (if xorb code (fence l) then l else spread l)).
  { destruct (xorb code (fence l)); cbn [negb andb]; [destruct (plain_good l b G); eauto|]. destruct (existsb (fun c => ceq c "|") l) eqn:X; [destruct (row_good (length l) l b G (le_n _)); eauto|].
    rewrite spread_none; [destruct (plain_good l b G); eauto|]. intro I. assert (T : existsb (fun c => ceq c "|") l = true) by (apply existsb_exists; exists "|"%char; split; [exact I|reflexivity]). congruence. }
  destruct K as (b' & -> & G' & O'). destruct (eol_good e b' G' L) as (A & C & D). split; [exact A|]. split; [rewrite C, O'; now rewrite <- app_assoc|exact D].
Qed.

Lemma lines_short ls : Lines ls -> Forall (fun p => length (snd p) <= 2) ls.
Proof. intro H. induction H; repeat constructor; assumption. Qed.

Lemma tail_closed a t : a ++ t = [] \/ (exists q c, a ++ t = q ++ [c] /\ (c = NL \/ c = CR)) -> t = [] \/ exists q c, t = q ++ [c] /\ (c = NL \/ c = CR).
Proof.
  intro H. destruct (last_cases t) as [->|(q & c & ->)]; [now left|]. right. exists q, c. split; [reflexivity|]. destruct H as [H|(q' & c' & H & K)]; [destruct a; [destruct q|]; discriminate H|]. rewrite app_assoc in H. apply app_inj_tail in H. destruct H as [_ ->]. exact K.
Qed.

Lemma fold_good ls : forall code b, Forall (fun p => length (snd p) <= 2) ls -> good b -> exists code' b', fold_left line ls (code, b) = (code', b') /\ good b' /\ b_out b' = b_out b ++ join (turn code ls)
  /\ (1 <= remaining b -> Forall (fun p => snd p <> []) ls -> 1 <= remaining b').
Proof.
  induction ls as [|p ls IH]; intros code b F G; [exists code, b; repeat split; try apply G; [unfold join; cbn; now rewrite app_nil_r|auto]|]. inversion F as [|? ? P F']; subst.
  destruct (line_good p code b G P) as (b1 & E1 & G1 & O1 & R1). cbn [fold_left]. rewrite E1. destruct (IH (xorb code (fence (fst p))) b1 F' G1) as (c' & b' & E & G' & O' & R'). exists c', b'. split; [exact E|]. split; [exact G'|].
  split; [rewrite O', O1; unfold join; cbn [turn map concat]; now rewrite <- !app_assoc|]. intros R La. inversion La; subst. auto.
Qed.

Lemma lines_closed ls t : Lines ls -> join ls = t -> (t = [] \/ exists q c, t = q ++ [c] /\ (c = NL \/ c = CR)) -> Forall (fun p => snd p <> []) ls.
Proof.
  intros H. revert t. induction H as [|l T N|l ls T H IH|l ls T H IH|l ls T C H IH]; intros t E K; [constructor| | | |].
  - exfalso. unfold join in E. cbn [map concat fst snd] in E. rewrite !app_nil_r in E. subst l. destruct K as [K|(q & c & -> & Cc)]; [congruence|]. destruct T as [T1 T2]. destruct Cc as [-> | ->]; [apply T1|apply T2]; apply in_or_app; right; left; reflexivity.
  - constructor; [discriminate|]. apply (IH _ eq_refl). apply (tail_closed (l ++ [NL])). unfold join in E. cbn [map concat fst snd] in E. unfold join. rewrite E. exact K.
  - constructor; [discriminate|]. apply (IH _ eq_refl). apply (tail_closed (l ++ [CR; NL])). unfold join in E. cbn [map concat fst snd] in E. unfold join. rewrite E. exact K.
  - constructor; [discriminate|]. apply (IH _ eq_refl). apply (tail_closed (l ++ [CR])). unfold join in E. cbn [map concat fst snd] in E. unfold join. rewrite E. exact K.
Qed.

Lemma colspans_exact ls : Lines ls -> Forall (fun p => snd p <> []) ls -> colspans (join ls) = Some (join (turn false ls)).
Proof.
  intros H F. unfold colspans. rewrite (cut_join ls H). assert (G : good (Buf (length (join ls) * 2 + 1) [] false)) by (split; [reflexivity|cbn; lia]).
  destruct (fold_good ls false _ (lines_short ls H) G) as (c' & b' & E & G' & O' & R'). rewrite E. cbn [snd]. destruct G' as [-> _]. rewrite O'. cbn [b_out app orb]. assert (R : 1 <= remaining b') by (apply R'; [unfold remaining; cbn; lia|exact F]).
  destruct (Nat.eqb_spec (remaining b') 0); [lia|reflexivity].
Qed.

Lemma closed_ended t : Ended t (closed t).
Proof.
  unfold closed, Ended. destruct (rev t) as [|c q] eqn:E.
  - apply (f_equal (@rev ascii)) in E. rewrite rev_involutive in E. subst t. left. auto.
  - apply (f_equal (@rev ascii)) in E. rewrite rev_involutive in E. cbn [rev] in E. subst t. destruct (ceq c NL || ceq c CR) eqn:C.
    + left. split; [|reflexivity]. right. exists (rev q), c. split; [reflexivity|]. apply Bool.orb_true_iff in C. destruct C as [C|C]; apply ceq_eq in C; auto.
    + right. split; [|reflexivity]. apply Bool.orb_false_iff in C. destruct C as [C D]. apply ceq_neq in C, D. exists (rev q), c. auto.
Qed.

Lemma ended_unique t x : Ended t x -> x = closed t.
Proof.
  intro H. destruct (closed_ended t) as [[A C]|[A C]]; rewrite C; destruct H as [[A' C']|[A' C']]; rewrite C'; try reflexivity; exfalso.
  - destruct A' as (q & c & -> & N1 & N2). destruct A as [A|(q' & c' & A & K)]; [destruct q; discriminate A|]. apply app_inj_tail in A. destruct A as [_ ->]. destruct K as [K|K]; contradiction.
  - destruct A as (q & c & -> & N1 & N2). destruct A' as [A|(q' & c' & A & K)]; [destruct q; discriminate A|]. apply app_inj_tail in A. destruct A as [_ ->]. destruct K as [K|K]; contradiction.
Qed.

Lemma ended_closed t x : Ended t x -> x = [] \/ exists q c, x = q ++ [c] /\ (c = NL \/ c = CR).
Proof. intros [[A ->]|[_ ->]]; [exact A|]. right. exists t, NL. auto. Qed.

Lemma spanned_exact t ls out : Lines ls -> Ended t (join ls) -> Spread false ls out -> spanned t = Some (join out).
Proof.
  intros H E S. unfold spanned. rewrite <- (ended_unique t _ E). apply spread_turn in S. subst out. apply colspans_exact; [exact H|]. exact (lines_closed ls _ H eq_refl (ended_closed t _ E)).
Qed.

(** ** Spreading *)
Lemma spread_cons c l : c <> "|"%char -> spread (c :: l) = c :: spread l.
Proof. intro N. cbn [spread]. destruct l; [reflexivity|]. destruct (ascii_dec c "|"); [contradiction|reflexivity]. Qed.
Lemma spread_bar c l : c <> "|"%char -> spread ("|"%char :: c :: l) = "|"%char :: spread (c :: l).
Proof. intro N. change (spread ("|"%char :: c :: l)) with (if ascii_dec "|" "|" then if ascii_dec c "|" then "|"%char :: B " << " ++ spread (c :: l) else "|"%char :: spread (c :: l) else "|"%char :: spread (c :: l)). destruct (ascii_dec "|" "|"), (ascii_dec c "|"); congruence. Qed.
Lemma spread_two l : spread ("|"%char :: "|"%char :: l) = "|"%char :: B " << " ++ spread ("|"%char :: l).
Proof. reflexivity. Qed.

Lemma spread_front x l : ~ In "|"%char x -> spread (x ++ l) = x ++ spread l.
Proof. induction x as [|c x IH]; [reflexivity|]. intro N. cbn [app]. rewrite spread_cons, IH; [reflexivity|intro; apply N; now right|intros ->; apply N; now left]. Qed.

Lemma spread_back x r : ~ In "|"%char x -> forall l, spread l = x ++ r -> exists r', l = x ++ r'.
Proof.
  induction x as [|c x IH]; intros N l E; [now exists l|]. destruct l as [|d l]; [discriminate E|]. cbn [app] in E. destruct (ascii_dec d "|") as [->|Nd].
  - exfalso. apply N. left. destruct l as [|d l]; [now injection E as <-|]. destruct (ascii_dec d "|") as [->|Nd]; [rewrite spread_two in E|rewrite spread_bar in E by exact Nd]; now injection E as <-.
  - rewrite spread_cons in E by exact Nd. injection E as -> E. destruct (IH ltac:(intro; apply N; now right) l E) as (r' & ->). now exists r'.
Qed.

Lemma fence_part w f : Forall (fun c => c = SP \/ c = TAB) w -> f = B "```" \/ f = B "~~~" -> ~ In "|"%char (w ++ f).
Proof. intros W F I. apply in_app_or in I. destruct I as [I|I]; [rewrite Forall_forall in W; destruct (W _ I); discriminate|]. destruct F as [-> | ->]; repeat (destruct I as [I|I]; [discriminate I|]); destruct I. Qed.

Lemma fence_spread l : fence (spread l) = fence l.
Proof.
  apply Bool.eq_true_iff_eq. rewrite !fence_bool. split; intros (w & f & r & E & W & F); pose proof (fence_part w f W F) as N.
  - rewrite app_assoc in E. destruct (spread_back (w ++ f) r N l E) as (r' & ->). exists w, f, r'. rewrite <- app_assoc. auto.
  - subst l. exists w, f, (spread r). rewrite app_assoc, spread_front by exact N. rewrite <- app_assoc. auto.
Qed.

Lemma spread_in c l : In c (spread l) -> In c l \/ In c (B " << ").
Proof.
  induction l as [|d l IH]; [auto|]. destruct (ascii_dec d "|") as [->|Nd].
  - destruct l as [|d l]; [cbn; tauto|]. destruct (ascii_dec d "|") as [->|Nd]; [rewrite spread_two|rewrite spread_bar by exact Nd].
    + intros [<-|I]; [left; now left|]. apply in_app_or in I. destruct I as [I|I]; [now right|]. destruct (IH I); [left; now right|now right].
    + intros [<-|I]; [left; now left|]. destruct (IH I); [left; now right|now right].
  - rewrite spread_cons by exact Nd. intros [<-|I]; [left; now left|]. destruct (IH I); [left; now right|now right].
Qed.

Lemma spread_nil l : spread l = [] -> l = [].
Proof. destruct l as [|c l]; [reflexivity|]. intro E. destruct (ascii_dec c "|") as [->|N]; [|rewrite spread_cons in E by exact N; discriminate E]. destruct l as [|d l]; [discriminate E|]. destruct (ascii_dec d "|") as [->|N]; [discriminate E|rewrite spread_bar in E by exact N; discriminate E]. Qed.

Lemma spread_text l : line_text l -> line_text (spread l).
Proof. intros [A C]. split; intro I; apply spread_in in I; (destruct I as [I|I]; [auto|]; repeat (destruct I as [I|I]; [discriminate I|]); destruct I). Qed.

Lemma spread_id l : spread (spread l) = spread l.
Proof.
  remember (length l) as n eqn:E. assert (L : length l <= n) by lia. clear E. revert l L. induction n as [|n IH]; intros l L; (destruct l as [|c l]; [reflexivity|cbn [length] in L; try lia]).
  destruct (ascii_dec c "|") as [->|N].
  - destruct l as [|d l]; [reflexivity|]. destruct (ascii_dec d "|") as [->|N].
    + rewrite spread_two. cbn [app B list_ascii_of_string]. rewrite (spread_bar " ") by discriminate. rewrite (spread_cons " ") by discriminate. rewrite !(spread_cons "<") by discriminate. rewrite (spread_cons " ") by discriminate. rewrite (IH ("|"%char :: l)) by (cbn in *; lia). reflexivity.
    + rewrite spread_bar by exact N. rewrite (spread_cons d) by exact N. rewrite spread_bar by exact N. rewrite (spread_cons d (spread l)) by exact N. rewrite (IH l) by (cbn in *; lia). reflexivity.
  - rewrite spread_cons by exact N. rewrite spread_cons by exact N. rewrite (IH l) by lia. reflexivity.
Qed.

Lemma spread_same l : ~ within (B "||") l -> spread l = l.
Proof.
  induction l as [|c l IH]; [reflexivity|]. intro W. assert (W' : ~ within (B "||") l) by (intros (a & b & ->); apply W; exists (c :: a), b; reflexivity). destruct (ascii_dec c "|") as [->|N].
  - destruct l as [|d l]; [reflexivity|]. destruct (ascii_dec d "|") as [->|N]; [exfalso; apply W; exists [], l; reflexivity|]. rewrite spread_bar by exact N. now rewrite IH.
  - rewrite spread_cons by exact N. now rewrite IH.
Qed.

Lemma spread_long l : length l <= length (spread l) /\ (within (B "||") l -> length l < length (spread l)).
Proof.
  induction l as [|c l [IH1 IH2]]; [split; [cbn; lia|intros ([|] & b & E); discriminate E]|].
  assert (K : within (B "||") (c :: l) -> within (B "||") l \/ c = "|"%char /\ exists r, l = "|"%char :: r) by (intros ([|x a] & b & E); [right; injection E as -> ->; eauto|left; injection E as -> ->; exists a, b; reflexivity]).
  destruct (ascii_dec c "|") as [->|N].
  - destruct l as [|d l]; [split; [cbn; lia|intro W; apply K in W; destruct W as [([|] & b & E)|(_ & r & E)]; discriminate E]|]. destruct (ascii_dec d "|") as [->|N].
    + rewrite spread_two. cbn [length app B list_ascii_of_string] in *. split; [lia|intros _; lia].
    + rewrite spread_bar by exact N. cbn [length] in *. split; [lia|]. intro W. apply K in W. destruct W as [W|(_ & r & E)]; [specialize (IH2 W); lia|congruence].
  - rewrite spread_cons by exact N. cbn [length]. split; [lia|]. intro W. apply K in W. destruct W as [W|(E & _)]; [specialize (IH2 W); lia|congruence].
Qed.

Lemma spread_changed l : within (B "||") l -> spread l <> l.
Proof. intros W E. pose proof (proj2 (spread_long l) W) as L. rewrite E in L. lia. Qed.

(** ** Parts *)
Lemma parts_some e l : exists x xs, parts e l = x :: xs.
Proof.
  revert e. induction l as [|c l IH]; intro e; [eexists _, _; reflexivity|]. cbn [parts]. destruct (ascii_dec c "|").
  - destruct e; [|eexists _, _; reflexivity]. destruct (IH false) as (x & xs & ->). eexists _, _. reflexivity.
  - destruct (IH (if ascii_dec c BS then negb e else false)) as (x & xs & ->). eexists _, _. reflexivity.
Qed.

Lemma parts_cons c l : c <> "|"%char -> c <> BS -> parts false (c :: l) = push c (parts false l).
Proof. intros N M. cbn [parts]. destruct (ascii_dec c "|"); [contradiction|]. destruct (ascii_dec c BS); [contradiction|reflexivity]. Qed.
Lemma parts_bar l : parts false ("|"%char :: l) = [] :: parts false l. Proof. reflexivity. Qed.
Lemma filled_push c xs : filled (push c xs) = push c (filled xs).
Proof. destruct xs; reflexivity. Qed.
Lemma inner_more x y r : inner (x :: y :: r) = middle x :: inner (y :: r). Proof. reflexivity. Qed.

Lemma parts_spread l : ~ In BS l -> parts false (spread l) = filled (parts false l).
Proof.
  induction l as [|c l IH]; [reflexivity|]. intro Nb. assert (IH' := IH ltac:(intro; apply Nb; now right)). clear IH. destruct (ascii_dec c "|") as [->|N].
  - destruct l as [|d l]; [reflexivity|]. destruct (ascii_dec d "|") as [->|N].
    + rewrite spread_two, !parts_bar. cbn [app B list_ascii_of_string]. rewrite !parts_cons by discriminate. rewrite IH', parts_bar. destruct (parts_some false l) as (x & xs & ->). cbn [filled]. rewrite inner_more. reflexivity.
    + rewrite spread_bar by exact N. rewrite !parts_bar, IH'. rewrite (parts_cons d l N) by (intros ->; apply Nb; right; now left). destruct (parts_some false l) as (x & xs & ->). cbn [push filled]. destruct xs; reflexivity.
  - rewrite spread_cons by exact N. assert (M : c <> BS) by (intros ->; apply Nb; now left). rewrite !parts_cons by assumption. now rewrite IH', filled_push.
Qed.

Lemma parts_front x l : ~ In "|"%char x -> ~ In BS x -> parts false (x ++ l) = match parts false l with [] => [x] | y :: ys => (x ++ y) :: ys end.
Proof.
  intros N M. destruct (parts_some false l) as (y & ys & E). rewrite E. induction x as [|c x IH]; [exact E|]. cbn [app]. rewrite parts_cons; [|intros ->; apply N; now left|intros ->; apply M; now left]. rewrite IH; [reflexivity|intro; apply N; now right|intro; apply M; now right].
Qed.

(** ** Twice *)
Lemma turn_turn ls : forall c, turn c (turn c ls) = turn c ls.
Proof.
  induction ls as [|[l e] ls IH]; intro c; [reflexivity|]. cbn [turn turned fst snd]. unfold turned. cbn [fst snd]. destruct (xorb c (fence l)) eqn:X; cbn [fst snd].
  - rewrite X. now rewrite IH.
  - rewrite fence_spread, X, spread_id. now rewrite IH.
Qed.

Lemma turn_lines ls : Lines ls -> forall c, Lines (turn c ls).
Proof.
  assert (T : forall l (b : bool), line_text l -> line_text (if b then l else spread l)) by (intros l [|] H; [exact H|now apply spread_text]).
  intro H. induction H as [|l Tl N|l ls Tl H IH|l ls Tl H IH|l ls Tl C H IH]; intro c; cbn [turn turned fst snd]; unfold turned; cbn [fst snd].
  - constructor.
  - apply lines_last; [now apply T|]. destruct (xorb c (fence l)); [exact N|]. intro E. apply N. now apply spread_nil.
  - apply lines_nl; auto.
  - apply lines_crlf; auto.
  - apply lines_cr; auto. intros e q E. destruct ls as [|[l' e'] ls]; [discriminate E|]. cbn [turn turned fst snd] in E. unfold turned in E. cbn [fst snd] in E. injection E as E1 E2 _. apply (C e ls). subst e'. f_equal. f_equal. destruct (xorb (xorb c (fence l)) (fence l')); [exact E1|now apply spread_nil].
Qed.

Lemma turn_ends ls : forall c, Forall (fun p : str * str => snd p <> []) ls -> Forall (fun p => snd p <> []) (turn c ls).
Proof. induction ls as [|p ls IH]; intros c F; [constructor|]. inversion F; subst. cbn [turn]. constructor; [assumption|auto]. Qed.

Lemma join_closed ls : Lines ls -> Forall (fun p => snd p <> []) ls -> join ls = [] \/ exists q c, join ls = q ++ [c] /\ (c = NL \/ c = CR).
Proof.
  assert (K : forall l e c ls, (c = NL \/ c = CR) -> (join ls = [] \/ exists q c, join ls = q ++ [c] /\ (c = NL \/ c = CR)) -> join ((l, e ++ [c]) :: ls) = [] \/ exists q x, join ((l, e ++ [c]) :: ls) = q ++ [x] /\ (x = NL \/ x = CR)).
  { intros l e c ls0 C D. right. unfold join in D |- *. cbn [map concat fst snd]. destruct D as [D|(q & d & D & Cd)]; rewrite D.
    - exists (l ++ e), c. rewrite app_nil_r, app_assoc. auto.
    - exists ((l ++ e ++ [c]) ++ q), d. split; [rewrite <- !app_assoc; reflexivity|exact Cd]. }
  intro H. induction H as [|l Tl N|l ls Tl H IH|l ls Tl H IH|l ls Tl C H IH]; intro F; [now left|inversion F; subst; cbn in *; congruence| | |]; inversion F; subst.
  - apply (K l [] NL); auto.
  - apply (K l [CR] NL); auto.
  - apply (K l [] CR); auto.
Qed.

Lemma spanned_turn t ls : Lines ls -> Ended t (join ls) -> spanned t = Some (join (turn false ls)).
Proof. intros H E. apply (spanned_exact t ls); [exact H|exact E|]. now apply spread_turn. Qed.

Lemma some_lines t : exists ls, Lines ls /\ Ended t (join ls).
Proof. exists (cut_ends (closed t)). destruct (cut_shape (closed t)) as [A C]. split; [exact A|]. rewrite C. apply closed_ended. Qed.

Lemma spanned_twice t x : spanned t = Some x -> spanned x = Some x.
Proof.
  destruct (some_lines t) as (ls & H & E). rewrite (spanned_turn t ls H E). intro X. injection X as <-.
  assert (F : Forall (fun p => snd p <> []) ls) by exact (lines_closed ls _ H eq_refl (ended_closed t _ E)).
  rewrite (spanned_turn _ (turn false ls)); [now rewrite turn_turn|now apply turn_lines|]. left. split; [|reflexivity]. apply join_closed; [now apply turn_lines|now apply turn_ends].
Qed.

(** ** Fences *)
Definition flips (c : bool) (ls : list (str * str)) : bool := fold_left (fun c p => xorb c (fence (fst p))) ls c.
Lemma turn_app ls ls' : forall c, turn c (ls ++ ls') = turn c ls ++ turn (flips c ls) ls'.
Proof. induction ls as [|p ls IH]; intro c; [reflexivity|]. cbn [app turn flips fold_left]. rewrite IH. reflexivity. Qed.
Lemma turn_len ls : forall c, length (turn c ls) = length ls.
Proof. induction ls as [|p ls IH]; intro c; [reflexivity|]. cbn [turn length]. now rewrite IH. Qed.

Lemma body_turn body : Forall (fun p => ~ fence_line (fst p)) body -> turn true body = body /\ flips true body = true.
Proof.
  induction 1 as [|[l e] ls N F [IH1 IH2]]; [auto|]. cbn [fst] in N. assert (X : fence l = false) by (destruct (fence l) eqn:E; [exfalso; apply N; now apply fence_bool|reflexivity]).
  cbn [turn flips fold_left fst]. unfold turned. cbn [fst snd]. rewrite X. cbn [xorb]. rewrite IH1. auto.
Qed.

Lemma flips_app ls ls' c : flips c (ls ++ ls') = flips (flips c ls) ls'. Proof. apply fold_left_app. Qed.

Lemma blocks_flips ls : Blocks ls -> flips false ls = false.
Proof.
  induction 1 as [|l e ls N H IH|f e body g h ls F Bd G H IH]; [reflexivity| |].
  - assert (X : fence l = false) by (destruct (fence l) eqn:E; [exfalso; apply N; now apply fence_bool|reflexivity]). cbn [flips fold_left fst]. now rewrite X.
  - change ((f, e) :: body ++ (g, h) :: ls) with ([(f, e)] ++ body ++ [(g, h)] ++ ls). rewrite !flips_app. apply fence_bool in F, G. cbn [flips fold_left fst]. rewrite F. cbn [xorb]. change (fold_left (fun c p => xorb c (fence (fst p))) body true) with (flips true body).
    rewrite (proj2 (body_turn body Bd)). rewrite G. exact IH.
Qed.
