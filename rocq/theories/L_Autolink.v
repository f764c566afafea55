(** Lemmas for M_Autolink. *)
From Verif Require Import Base BaseL L_Pass M_Relax M_Spans M_Autolink S_Autolink.

Lemma white_bool c : white c <-> isspace c = true.
Proof. unfold white, isspace, between. rewrite orb_true_iff, andb_true_iff, !N.leb_le, ceq_eq. tauto. Qed.
Lemma white_false c : ~ white c <-> isspace c = false.
Proof. rewrite white_bool. destruct (isspace c); split; congruence || tauto. Qed.
Lemma solid_bool c : solid c <-> word c = true.
Proof. unfold solid, word. rewrite !andb_true_iff, !negb_true_iff, white_false, !ceq_neq. tauto. Qed.
Lemma alnum_bool c : alnum c <-> isalnum c = true.
Proof. unfold alnum, isalnum, isalpha, isupper, islower, isdigit, between. rewrite !orb_true_iff, !andb_true_iff, !N.leb_le. tauto. Qed.
Lemma stop_bool c : stop c <-> punct c = true.
Proof. unfold stop, punct. rewrite !orb_true_iff, !ceq_eq. cbn. split; [intros [<-|[<-|[<-|[<-|[]]]]]; tauto|intros [[[-> | ->]| ->]| ->]; auto]. Qed.
Lemma solids u : Forall solid u <-> Forall (fun c => word c = true) u.
Proof. rewrite !Forall_forall. split; intros H x I; apply solid_bool, H, I. Qed.

(** ** Words and their ends *)
Lemma span_more f q s : Forall (fun c => f c = true) q -> span f (q ++ s) = (q ++ fst (span f s), snd (span f s)).
Proof. induction 1 as [|c q C Q IH]; [cbn [app]; destruct (span f s); reflexivity|]. cbn [app span]. now rewrite C, IH. Qed.
Lemma trim_keep f q c w : f c = false -> trim_end f (q ++ c :: w) = q ++ c :: trim_end f w.
Proof. intro C. induction q as [|d q IH]; cbn [app trim_end]; [rewrite C; now destruct (trim_end f w)|]. rewrite IH. now destruct q. Qed.
Lemma trim_all f z : Forall (fun c => f c = true) z -> trim_end f z = [].
Proof. induction 1 as [|c z C Z IH]; [reflexivity|]. cbn. now rewrite IH, C. Qed.
Lemma trim_front f s : exists z, s = trim_end f s ++ z.
Proof. induction s as [|c s (z & IH)]; [exists []; reflexivity|]. cbn. destruct (trim_end f s) eqn:E; [destruct (f c); [exists (c :: s)|exists s]; reflexivity|]. exists z. cbn [app]. f_equal. exact IH. Qed.

(** ** The e-mail test *)
Lemma tld_shape y : tld y = true -> exists p e q, y = p ++ "."%char :: e :: q /\ isalnum e = true /\ Forall (fun c => isalnum c || ceq c "-" || ceq c "_" = true) p.
Proof.
  induction y as [|c y IH]; [discriminate|]. cbn [tld]. destruct (ceq c "." && _) eqn:E.
  - intros _. apply andb_true_iff in E as [E1 E2]. apply ceq_eq in E1. subst c. destruct y as [|e q]; [discriminate|]. exists [], e, q. auto.
  - destruct (negb (isalnum c) && negb (ceq c "-") && negb (ceq c "_")) eqn:E2; [discriminate|]. intro T. destruct (IH T) as (p & e & q & -> & A & F). exists (c :: p), e, q. split; [reflexivity|]. split; [exact A|]. constructor; [|exact F]. destruct (isalnum c), (ceq c "-"), (ceq c "_"); auto.
Qed.
Lemma tld_of p e q : Forall (fun c => isalnum c || ceq c "-" || ceq c "_" = true) p -> isalnum e = true -> tld (p ++ "."%char :: e :: q) = true.
Proof.
  intros F A. induction F as [|c p C F IH]; cbn [app tld]; [now rewrite A|]. destruct (ceq c "." && _); [reflexivity|]. replace (negb (isalnum c) && negb (ceq c "-") && negb (ceq c "_")) with false; [exact IH|]. destruct (isalnum c), (ceq c "-"), (ceq c "_"); auto.
Qed.
Lemma email_shape bk s : email bk s = true -> (bk = [] \/ exists d b, bk = d :: b /\ (white d \/ d = "("%char \/ d = "["%char)) /\ exists x d p e q, fst (span word s) = x ++ d :: "@"%char :: p ++ "."%char :: e :: q /\ isalnum d = true /\ isalnum e = true.
Proof.
  unfold email. intro H. apply andb_true_iff in H as [H1 H]. apply andb_true_iff in H1 as [H1 _]. split.
  - destruct bk as [|d b]; [now left|]. right. exists d, b. split; [reflexivity|]. rewrite !orb_true_iff, !ceq_eq in H1. rewrite white_bool. tauto.
  - destruct (span (fun c => negb (ceq c "@")) (fst (span word s))) as [x y] eqn:E. pose proof (span_app _ _ _ _ E) as Q. destruct y as [|a [|e0 y]]; try discriminate. destruct (rev x) as [|d x'] eqn:R; [discriminate|]. apply andb_true_iff in H as [H T]. apply andb_true_iff in H as [_ A].
    assert (Ea : a = "@"%char) by (pose proof (proj1 (proj2 (span_shape (fun c => negb (ceq c "@")) (fst (span word s))))) as Sp; rewrite E in Sp; specialize (Sp a _ eq_refl); apply negb_false_iff, ceq_eq in Sp; exact Sp). subst a.
    destruct (tld_shape _ T) as (p & e & q & Ey & Ae & _). exists (rev x'), d, p, e, q. rewrite Q, Ey. split; [|auto]. assert (Ex : x = rev x' ++ [d]) by (rewrite <- (rev_involutive x), R; reflexivity). rewrite Ex, <- app_assoc. reflexivity.
Qed.
Lemma email_at bk s : email bk s = true -> In "@"%char (fst (span word s)).
Proof. intro E. destruct (email_shape bk s E) as (_ & x & d & p & e & q & -> & _). apply in_or_app. cbn. auto. Qed.

Lemma url_shape s : M_Autolink.url s = true <-> exists m r, In m schemes /\ s = m ++ r.
Proof.
  unfold M_Autolink.url. rewrite !orb_true_iff. split.
  - intros [[H|H]|H]; apply starts_spec in H as (r & ->); [exists (B "http://"), r|exists (B "https://"), r|exists (B "mailto:"), r]; cbn; auto.
  - intros (m & r & [<-|[<-|[<-|[]]]] & ->); rewrite starts_app; auto.
Qed.

(** The word at [s], without the stops at its end *)
Definition clip (s : str) : str := trim_end punct (fst (span word s)).
Lemma clip_front s : exists t, s = clip s ++ t /\ Forall solid (clip s).
Proof.
  destruct (span_shape word s) as (F & _ & Q). destruct (trim_front punct (fst (span word s))) as (z & Z). exists (z ++ snd (span word s)). split; [unfold clip; rewrite app_assoc, <- Z; exact Q|]. apply solids. rewrite Z in F. apply Forall_app in F. exact (proj1 F).
Qed.
Lemma clip_url s : M_Autolink.url s = true -> exists m v, In m [B "http://"; B "https://"; B "mailto"] /\ clip s = m ++ v.
Proof.
  intro U. apply url_shape in U as (m & r & I & ->). unfold clip. destruct I as [<-|[<-|[<-|[]]]].
  - exists (B "http://"), (trim_end punct (fst (span word r))). split; [cbn; auto|]. rewrite span_more by (repeat constructor). cbn [fst]. exact (trim_keep punct (B "http:/") "/" (fst (span word r)) eq_refl).
  - exists (B "https://"), (trim_end punct (fst (span word r))). split; [cbn; auto|]. rewrite span_more by (repeat constructor). cbn [fst]. exact (trim_keep punct (B "https:/") "/" (fst (span word r)) eq_refl).
  - exists (B "mailto"), (trim_end punct (":"%char :: fst (span word r))). split; [cbn; auto|]. rewrite span_more by (repeat constructor). cbn [fst]. exact (trim_keep punct (B "mailt") "o" (":"%char :: fst (span word r)) eq_refl).
Qed.
Lemma alnum_punct e : isalnum e = true -> punct e = false.
Proof.
  pose (P := fun c => implb (isalnum c) (negb (punct c))). assert (H : P e = true) by (apply byte_forall; vm_compute; reflexivity). unfold P in H. intro A. rewrite A in H. now apply negb_true_iff in H.
Qed.
Lemma clip_mail bk s : email bk s = true -> exists x d y, clip s = x ++ d :: "@"%char :: y /\ alnum d /\ 2 <= length y.
Proof.
  intro E. destruct (email_shape bk s E) as (_ & x & d & p & e & q & Q & D & A). exists x, d, (p ++ "."%char :: e :: trim_end punct q). unfold clip. rewrite Q. split; [|split; [now apply alnum_bool|rewrite app_length; cbn; lia]].
  replace (x ++ d :: "@"%char :: p ++ "."%char :: e :: q) with ((x ++ d :: "@"%char :: p ++ ["."%char]) ++ e :: q) by (rewrite <- !app_assoc; cbn [app]; rewrite <- !app_assoc; reflexivity).
  rewrite trim_keep by exact (alnum_punct e A). rewrite <- !app_assoc. cbn [app]. rewrite <- !app_assoc. reflexivity.
Qed.

Lemma address_shape bk s u h : address bk s = Some (u, h) -> u = clip s /\ u <> [] /\
  (M_Autolink.url s = true /\ h = u \/ M_Autolink.url s = false /\ email bk s = true /\ (h = B "mailto:" ++ u \/ exists r, u = B "mailto:" ++ r) /\ (bk = [] \/ exists d b, bk = d :: b /\ white d)).
Proof.
  unfold address. fold (clip s). set (fr := negb (isspace (at_ s 0)) && _). remember ((7 <=? length (clip s)) && starts (B "mailto:") (clip s)) as mt eqn:Em. intro H. destruct (fr && M_Autolink.url s || fr && negb (M_Autolink.url s) && email bk s) eqn:E; [|discriminate].
  destruct ((0 <? length (clip s)) && _ && _) eqn:G; [|discriminate]. injection H as <- <-. apply andb_true_iff in G as [G _]. apply andb_true_iff in G as [G1 G2]. apply Nat.ltb_lt in G1. split; [reflexivity|]. split; [destruct (clip s); [cbn in G1; lia|discriminate]|].
  destruct fr; [|discriminate]. cbn [andb] in *. destruct (M_Autolink.url s) eqn:U; cbn [negb andb orb] in *; [left; auto|]. right. split; [reflexivity|]. split; [exact E|]. rewrite E. cbn [andb]. split.
  - destruct mt; [|now left]. symmetry in Em. right. apply andb_true_iff in Em as [_ M]. apply starts_spec in M. exact M.
  - destruct (email_shape bk s E) as ([->|(d & b & -> & W)] & _); [now left|]. right. exists d, b. split; [reflexivity|]. destruct W as [W|[-> | ->]]; [exact W|discriminate G2|discriminate G2].
Qed.

(** ** One turn *)
Definition shown (m : move) (s : str) : str := match m with Copy n | Line n => firstn n s | Link _ u h => link u h end.
Definition copying (m : move) : Prop := match m with Link _ _ _ => False | _ => True end.
(** The three kinds of links *)
Definition linking (bk s : str) (m : move) : Prop :=
  (exists p v t, m = Link (length (p ++ v) + 2) (p ++ v) (p ++ v) /\ In p schemes /\ ~ In ">"%char (p ++ v) /\ s = B "<" ++ (p ++ v) ++ B ">" ++ t)
  \/ (exists p v t, m = Link (length (p ++ v)) (p ++ v) (p ++ v) /\ In p [B "http://"; B "https://"; B "mailto"] /\ Forall solid (p ++ v) /\ s = (p ++ v) ++ t)
  \/ (exists x d y t, m = Link (length (x ++ d :: "@"%char :: y)) (x ++ d :: "@"%char :: y) (B "mailto:" ++ x ++ d :: "@"%char :: y) /\ alnum d /\ 2 <= length y /\ Forall solid (x ++ d :: "@"%char :: y) /\ s = (x ++ d :: "@"%char :: y) ++ t /\ (bk = [] \/ exists w b, bk = w :: b /\ white w)).

Lemma at_in (r : str) c : at_ r 0 = c -> c <> NUL -> exists q, r = c :: q.
Proof. destruct r as [|d q]; [intros <- N; destruct (N eq_refl)|]. intros <- _. now exists q. Qed.
Lemma line_end_bounds s : line_end s <= length s.
Proof. unfold line_end. destruct (strchr NL s) as [k|] eqn:E; [|lia]. apply strchr_some in E as (a & b & -> & L & _). rewrite app_length. cbn. lia. Qed.
Lemma line_end_pos c r : c <> NL -> 1 <= line_end (c :: r).
Proof. intro N. unfold line_end. destruct (strchr NL (c :: r)) as [k|] eqn:E; [|cbn [length]; lia]. apply strchr_some in E as (a & b & Q & L & _). destruct a; [injection Q as -> _; congruence|subst k; cbn [length]; lia]. Qed.
Lemma line_move_nl bk c r : line_move bk (c :: r) = true -> c <> NL.
Proof.
  unfold line_move. intros H ->. apply andb_true_iff in H as [_ H]. apply orb_true_iff in H as [H|H]; discriminate H.
Qed.
Lemma angle_shape s u : angle s = Some u -> exists p v t, u = p ++ v /\ In p schemes /\ ~ In ">"%char u /\ s = B "<" ++ u ++ B ">" ++ t.
Proof.
  destruct s as [|c r]; [discriminate|]. cbn [angle]. destruct (ceq c "<") eqn:C; [|discriminate]. apply ceq_eq in C. subst c. destruct (strchr ">" r) as [k|] eqn:E; [|discriminate]. destruct (_ || _) eqn:G; [|discriminate]. intro H. injection H as <-.
  apply strchr_some in E as (a & b & -> & L & N). subst k. rewrite firstn_app, firstn_all, Nat.sub_diag, app_nil_r.
  assert (K : exists p v, a = p ++ v /\ In p schemes).
  { rewrite !orb_true_iff, !andb_true_iff, !Nat.ltb_lt in G. destruct G as [[[L G]|[L G]]|[L G]]; apply starts_spec in G as (t & G).
    - destruct (app_split a (">"%char :: b) (B "http://") t G) as (e & -> & _); [cbn; lia|]. exists (B "http://"), e. cbn. auto.
    - destruct (app_split a (">"%char :: b) (B "https://") t G) as (e & -> & _); [cbn; lia|]. exists (B "https://"), e. cbn. auto.
    - destruct (app_split a (">"%char :: b) (B "mailto:") t G) as (e & -> & _); [cbn; lia|]. exists (B "mailto:"), e. cbn. auto. }
  destruct K as (p & v & -> & I). exists p, v, b. split; [reflexivity|]. split; [exact I|]. split; [exact N|reflexivity].
Qed.

Lemma act_shape st bk c r st' m : act st bk c r = (st', m) -> 1 <= size m <= length (c :: r) /\ (copying m \/ linking bk (c :: r) m).
Proof.
  assert (C1 : forall k, k = 1 -> 1 <= k <= length (c :: r)) by (intros k ->; cbn; lia).
  assert (C2 : forall d, at_ r 0 = d -> d <> NUL -> 1 <= 2 <= length (c :: r)) by (intros d A N; destruct (at_in r d A N) as (q & ->); cbn; lia).
  unfold act. destruct (negb (a_liquid st) && ceq c "{" && ceq (at_ r 0) "%") eqn:E1.
  { intro H. injection H as _ <-. apply andb_true_iff in E1 as [_ E1]. apply ceq_eq in E1. split; [apply (C2 _ E1); discriminate|left; exact I]. }
  destruct (a_liquid st).
  { destruct (ceq c "%" && ceq (at_ r 0) "}") eqn:E2; intro H; injection H as _ <-; (split; [|left; exact I]); [apply andb_true_iff in E2 as [_ E2]; apply ceq_eq in E2; apply (C2 _ E2); discriminate|now apply C1]. }
  destruct (line_move bk (c :: r)) eqn:E3.
  { intro H. injection H as _ <-. split; [split; [exact (line_end_pos c r (line_move_nl bk c r E3))|apply line_end_bounds]|left; exact I]. }
  destruct (ceq c "`").
  { intro H. apply (f_equal snd) in H. cbv zeta in H. unfold snd in H. rewrite <- H. split; [|left; exact I]. unfold size. change (length (c :: r)) with (S (length r)). destruct (span_shape (is "`") r) as (_ & _ & Q). apply (f_equal (@length ascii)) in Q. rewrite app_length in Q. lia. }
  destruct (a_code st || a_inline st); [intro H; injection H as _ <-; split; [now apply C1|left; exact I]|].
  destruct (brackets st c (at_ r 0)) as [st1 both] eqn:E4. destruct both.
  { intro H. injection H as _ <-. split; [|left; exact I]. assert (A : at_ r 0 = "("%char).
    { unfold brackets in E4. destruct (ceq c "[" && _); [discriminate|]. destruct (ceq c "]" && _); [destruct (ceq (at_ r 0) "(") eqn:A; [now apply ceq_eq in A|discriminate]|]. destruct (ceq c "(" && _); [discriminate|]. destruct (ceq c ")" && _); discriminate. }
    apply (C2 _ A). discriminate. }
  destruct (a_url st1); [intro H; injection H as _ <-; split; [now apply C1|left; exact I]|]. destruct ((ceq c "h" || ceq c "m") && attr bk); [intro H; injection H as _ <-; split; [now apply C1|left; exact I]|].
  destruct (angle (c :: r)) as [u|] eqn:E5.
  { intro H. injection H as _ <-. destruct (angle_shape _ _ E5) as (p & v & t & -> & I & N & Q). split; [rewrite Q, !app_length; cbn; lia|]. right. left. exists p, v, t. auto. }
  destruct (comment (c :: r)) as [n|] eqn:E6.
  { intro H. injection H as _ <-. split; [|left; exact I]. unfold comment in E6. destruct (starts _ _); [|discriminate]. destruct (strstr _ _) as [k|] eqn:S; [|discriminate]. injection E6 as <-. apply strstr_some in S as (a & b & Q & L & _). rewrite Q, !app_length. cbn. lia. }
  destruct (address bk (c :: r)) as [[u h]|] eqn:E7; [|intro H; injection H as _ <-; split; [now apply C1|left; exact I]].
  intro H. injection H as _ <-. destruct (address_shape _ _ _ _ E7) as (-> & Z & K). destruct (clip_front (c :: r)) as (t & Q & F). split.
  - cbn [size]. apply (f_equal (@length ascii)) in Q. rewrite app_length in Q. rewrite Q. destruct (clip (c :: r)); [congruence|cbn [length]; lia].
  - right. destruct K as [[U ->]|(U & E & Hh & W)].
    + right. left. destruct (clip_url _ U) as (p & v & I & Ec). exists p, v, t. rewrite <- Ec. auto.
    + right. right. destruct (clip_mail _ _ E) as (x & d & y & Ec & D & L). exists x, d, y, t. rewrite <- Ec. split; [|auto]. destruct Hh as [-> |(q & M)]; [reflexivity|]. exfalso. rewrite M in Q. rewrite (proj2 (url_shape (c :: r))) in U; [discriminate|]. exists (B "mailto:"), (q ++ t). split; [cbn; auto|]. rewrite Q. now rewrite <- app_assoc.
Qed.

(** ** The whole run *)
Inductive Goes : auto -> str -> str -> str -> Prop :=
| goes_end st bk : Goes st bk [] []
| goes_on st bk c r st' m o : act st bk c r = (st', m) -> Goes st' (rev (firstn (size m) (c :: r)) ++ bk) (skipn (size m) (c :: r)) o -> Goes st bk (c :: r) (shown m (c :: r) ++ o).

Lemma goes_total st bk s : exists o, Goes st bk s o.
Proof.
  remember (length s) as n eqn:E. revert st bk s E. induction n as [n IH] using lt_wf_ind. intros st bk s ->. destruct s as [|c r]; [exists []; constructor|]. destruct (act st bk c r) as [st' m] eqn:A. destruct (act_shape _ _ _ _ _ _ A) as (L & _).
  destruct (IH (length (skipn (size m) (c :: r)))) with (st := st') (bk := rev (firstn (size m) (c :: r)) ++ bk) (s := skipn (size m) (c :: r)) as (o & G); [rewrite skipn_length; lia|reflexivity|]. eexists. exact (goes_on _ _ _ _ _ _ _ A G).
Qed.
Lemma goes_linked st bk s o : Goes st bk s o -> Linked s o.
Proof.
  induction 1 as [|st bk c r st' m o A G IH]; [constructor|]. destruct (act_shape _ _ _ _ _ _ A) as (L & [C|[(p & v & t & -> & I & N & Q)|[(p & v & t & -> & I & F & Q)|(x & d & y & t & -> & D & Ly & F & Q & _)]]]).
  - assert (K : forall n q w, Linked (skipn n q) w -> Linked q (firstn n q ++ w)).
    { clear. induction n as [|n IHn]; intros q w H; [exact H|]. destruct q as [|c q]; [exact H|]. cbn [firstn app]. constructor. apply IHn. exact H. }
    destruct m; [apply K; exact IH|apply K; exact IH|destruct C].
  - cbn [size shown] in *. rewrite Q in *. replace (skipn (length (p ++ v) + 2) (B "<" ++ (p ++ v) ++ B ">" ++ t)) with t in IH; [now constructor|]. replace (B "<" ++ (p ++ v) ++ B ">" ++ t) with ((B "<" ++ (p ++ v) ++ B ">") ++ t) by (now rewrite <- !app_assoc). replace (length (p ++ v) + 2) with (length (B "<" ++ (p ++ v) ++ B ">")) by (rewrite !app_length; cbn; lia). now rewrite skipn_app, skipn_all, Nat.sub_diag.
  - cbn [size shown] in *. rewrite Q in *. rewrite skipn_app, skipn_all, Nat.sub_diag in IH. now constructor.
  - cbn [size shown] in *. rewrite Q in *. rewrite skipn_app, skipn_all, Nat.sub_diag in IH. constructor; [exact D|exact F|destruct y; [cbn in Ly; lia|discriminate]|exact IH].
Qed.

(** The buffer: [n] is the length of the text *)
Definition roomy (n : nat) (bk : str) (b : buf) : Prop :=
  b_bad b = false /\ n * 4 + 1 <= b_cap b /\ length (b_out b) < b_cap b /\ length (b_out b) <= 4 * length bk + 3 /\ (bk = [] \/ (exists w q, bk = w :: q /\ white w) -> length (b_out b) <= 4 * length bk).
Lemma reserve_room k b : length (b_out b) <= b_cap b -> b_bad (reserve k b) = b_bad b /\ b_out (reserve k b) = b_out b /\ b_cap b <= b_cap (reserve k b) /\ length (b_out b) + k + 1 <= b_cap (reserve k b).
Proof. intro L. unfold reserve. destruct (b_cap b <? length (b_out b) + k + 1) eqn:E; cbn [b_bad b_out b_cap resize]; [apply Nat.ltb_lt in E; repeat split; lia|apply Nat.ltb_ge in E; repeat split; lia]. Qed.
Lemma last_solid (u : str) c q bk : Forall solid (u ++ [c]) -> ~ (rev (u ++ [c]) ++ bk = [] \/ exists w q', rev (u ++ [c]) ++ bk = w :: q' /\ white w) \/ q = bk.
Proof.
  intro F. left. rewrite rev_unit. cbn [app]. intros [H|(w & q' & H & W)]; [discriminate H|]. injection H as <- _. apply Forall_app in F. destruct F as [_ F]. apply Forall_inv in F. exact (proj1 F W).
Qed.
Lemma move_room n st bk c r st' m b : length bk + length (c :: r) = n -> act st bk c r = (st', m) -> roomy n bk b ->
  roomy n (rev (firstn (size m) (c :: r)) ++ bk) (do_move m (c :: r) b) /\ b_out (do_move m (c :: r) b) = b_out b ++ shown m (c :: r).
Proof.
  intros Ln A (G & C & O & X & Y). destruct (act_shape _ _ _ _ _ _ A) as (L & K). remember (size m) as k eqn:Hk. assert (Lk : length (firstn k (c :: r)) = k) by (apply firstn_length_le; lia).
  assert (Copied : forall b', b_bad b' = false -> b_out b' = b_out b -> b_cap b <= b_cap b' -> roomy n (rev (firstn k (c :: r)) ++ bk) (write (firstn k (c :: r)) b')).
  { intros b' G' O' C'. unfold roomy. cbn [write b_bad b_out b_cap]. rewrite G', O', !app_length, rev_length, Lk. cbn [orb]. split; [apply Nat.ltb_ge; lia|]. split; [lia|]. split; [lia|]. split; [lia|]. intros _. lia. }
  destruct K as [K|K].
  { destruct m as [j|j|j u h]; [| |destruct K]; cbn [size] in Hk; subst k.
    - split; [apply Copied; auto|reflexivity].
    - destruct (reserve_room j b ltac:(lia)) as (G' & O' & C' & _). split; [apply Copied; [now rewrite G'|exact O'|exact C']|]. cbn [do_move write b_out]. now rewrite O'. }
  assert (Ls : forall u h, m = Link k u h -> length u + length h + 4 <= 4 * k + 3 - (length (b_out b) - 4 * length bk) -> (~ (rev (firstn k (c :: r)) ++ bk = [] \/ exists w q', rev (firstn k (c :: r)) ++ bk = w :: q' /\ white w)) -> roomy n (rev (firstn k (c :: r)) ++ bk) (do_move m (c :: r) b) /\ b_out (do_move m (c :: r) b) = b_out b ++ shown m (c :: r)).
  { intros u h Em Lu Nw. rewrite Em. cbn [do_move shown]. destruct (reserve_room (2 + length u + 3 + length h + 2) b ltac:(lia)) as (G' & O' & C' & R'). unfold roomy. cbn [write b_bad b_out b_cap]. rewrite G', G, O'. assert (Ll : length (link u h) = length u + length h + 4) by (unfold link; rewrite !app_length; cbn; lia). fold (link u h). rewrite !app_length, rev_length, Lk, Ll. cbn [orb]. split; [|reflexivity].
    split; [apply Nat.ltb_ge; lia|]. split; [lia|]. split; [lia|]. split; [lia|]. intro H. contradiction. }
  assert (Sd : forall u t, c :: r = u ++ t -> k = length u -> u <> [] -> Forall solid u -> ~ (rev (firstn k (c :: r)) ++ bk = [] \/ exists w q', rev (firstn k (c :: r)) ++ bk = w :: q' /\ white w)).
  { intros u t Q Ek Z F. rewrite Ek, Q, firstn_app, firstn_all, Nat.sub_diag, app_nil_r. destruct (last_cases u) as [->|(u' & e & ->)]; [congruence|]. destruct (last_solid u' e [e] bk F) as [H|H]; [exact H|]. rewrite rev_unit. cbn [app]. intros [H'|(w & q' & H' & W)]; [discriminate H'|]. injection H' as <- _. apply Forall_app in F. destruct F as [_ F]. apply Forall_inv in F. exact (proj1 F W). }
  destruct K as [(p & v & t & Em & I & N & Q)|[(p & v & t & Em & I & F & Q)|(x & d & y & t & Em & D & Ly & F & Q & W)]].
  - assert (Ek : k = length (p ++ v) + 2) by (rewrite Hk, Em; reflexivity). apply (Ls (p ++ v) (p ++ v)); [now rewrite Em, Ek|destruct I as [<-|[<-|[<-|[]]]]; rewrite Ek; cbn [app length B list_ascii_of_string]; lia|].
    rewrite Q. replace (B "<" ++ (p ++ v) ++ B ">" ++ t) with ((B "<" ++ (p ++ v) ++ B ">") ++ t) by (now rewrite <- !app_assoc). replace k with (length (B "<" ++ (p ++ v) ++ B ">")) by (rewrite Ek, !app_length; cbn; lia). rewrite firstn_app, firstn_all, Nat.sub_diag, app_nil_r, app_assoc. change (B ">") with [">"%char]. rewrite rev_unit. cbn [app]. intros [H|(w & q' & H & W)]; [discriminate H|]. injection H as <- _. apply white_bool in W. discriminate W.
  - assert (Ek : k = length (p ++ v)) by (rewrite Hk, Em; reflexivity). assert (6 <= length (p ++ v)) by (destruct I as [<-|[<-|[<-|[]]]]; cbn [app length B list_ascii_of_string]; lia). apply (Ls (p ++ v) (p ++ v)); [now rewrite Em, Ek|rewrite Ek; lia|]. apply (Sd (p ++ v) t Q Ek); [destruct (p ++ v); [cbn in *; lia|discriminate]|exact F].
  - assert (Ek : k = length (x ++ d :: "@"%char :: y)) by (rewrite Hk, Em; reflexivity). assert (4 <= length (x ++ d :: "@"%char :: y)) by (rewrite app_length; cbn; lia). apply (Ls (x ++ d :: "@"%char :: y) (B "mailto:" ++ x ++ d :: "@"%char :: y)); [now rewrite Em, Ek|rewrite Ek; change (length (B "mailto:" ++ x ++ d :: "@"%char :: y)) with (7 + length (x ++ d :: "@"%char :: y)); specialize (Y W); lia|]. apply (Sd (x ++ d :: "@"%char :: y) t Q Ek); [destruct x; discriminate|exact F].
Qed.

Lemma go_spec st bk s o : Goes st bk s o -> forall fuel b n, length s < fuel -> length bk + length s = n -> roomy n bk b -> exists bk', roomy n bk' (go fuel st bk s b) /\ b_out (go fuel st bk s b) = b_out b ++ o.
Proof.
  induction 1 as [|st bk c r st' m o A G IH]; intros fuel b n Lf Ln R.
  - exists bk. destruct fuel; cbn; rewrite app_nil_r; auto.
  - destruct fuel as [|fuel]; [lia|]. cbn [go]. rewrite A. destruct (act_shape _ _ _ _ _ _ A) as (L & _). destruct (move_room n _ _ _ _ _ _ b Ln A R) as [R' O']. destruct (IH fuel (do_move m (c :: r) b) n) as (bk' & R2 & O2).
    + rewrite skipn_length. lia.
    + rewrite app_length, rev_length, skipn_length, firstn_length_le by lia. lia.
    + exact R'.
    + exists bk'. split; [exact R2|]. rewrite O2, O', <- app_assoc. reflexivity.
Qed.
Lemma autolinks_goes t o : Goes fresh [] t o -> autolinks t = Some o.
Proof.
  intro G. unfold autolinks. destruct (go_spec _ _ _ _ G (S (length t)) (Buf (length t * 4 + 1) [] false) (length t)) as (bk' & (Gd & _ & L & _) & O); [lia|reflexivity|split; [reflexivity|cbn; repeat split; lia]|]. rewrite Gd, O. unfold remaining. replace (b_cap _ - _ =? 0) with false by (symmetry; apply Nat.eqb_neq; lia). reflexivity.
Qed.
