(** Proofs about M_Pretty: short texts, and code. *)
From Verif Require Import Base BaseL M_Pretty S_Pretty L_Pretty.

(** ** Short texts are moderate *)
Lemma lies_depth l d v : lies l d v -> d <= length l.
Proof. intro H. induction H; rewrite ?app_length; cbn; lia. Qed.
Lemma cut_length s l : cut s l -> forall a p b, l = a ++ p :: b -> length a + length (bytes p) <= length s.
Proof.
  intro C. induction C as [|t s l G O C IH|t G O|c s l O C IH]; intros a p b E.
  - destruct a; discriminate.
  - destruct a as [|x a]; injection E as E1 E2.
    + subst p. cbn [bytes]. rewrite !app_length. cbn. lia.
    + specialize (IH a p b E2). rewrite !app_length. cbn. lia.
  - destruct a as [|x a]; injection E as E1 E2; [subst p; cbn; lia|]. destruct a; discriminate.
  - destruct a as [|x a]; injection E as E1 E2; [subst p; cbn; lia|]. specialize (IH a p b E2). cbn. lia.
Qed.
Lemma short_moderate s l : length s <= 48 -> cut s l -> moderate l.
Proof.
  intros L C a p b d v E Y. pose proof (cut_length _ _ C _ _ _ E). pose proof (lies_depth _ _ _ Y). lia.
Qed.

(** ** The context is a function *)
Lemma names_uniq n : forall r n' r', Forall in_name n -> Forall in_name n' ->
  (forall c q, r = c :: q -> ~ in_name c) -> (forall c q, r' = c :: q -> ~ in_name c) -> n ++ r = n' ++ r' -> n = n'.
Proof.
  induction n as [|c n IH]; intros r n' r' F F' S0 S1 E; destruct n' as [|c' n']; cbn in E.
  - reflexivity.
  - exfalso. inversion F'; subst. now apply (S0 c' (n' ++ r')).
  - exfalso. inversion F; subst. now apply (S1 c (n ++ r)).
  - injection E as -> E. inversion F; inversion F'; subst. f_equal. eauto.
Qed.
Lemma named_fun t b n b' n' : named t b n -> named t b' n' -> b = b' /\ n = n'.
Proof.
  assert (X : forall n r m, Forall in_name n -> n <> [] -> n ++ r <> "/"%char :: m).
  { intros [|c m] r m' F N E; [congruence|]. injection E as E _. inversion F as [|? ? (_ & _ & H)]; subst. congruence. }
  intros H H'. remember t as t' eqn:T in H'. destruct H as [n r F N S0|n r F N S0]; destruct H' as [n' r' F' N' S1|n' r' F' N' S1].
  - injection T as T. split; [reflexivity|]. now apply (names_uniq n r n' r').
  - injection T as T. exfalso. now apply (X n r (n' ++ r')).
  - injection T as T. exfalso. now apply (X n' r' (n ++ r)).
  - injection T as T. split; [reflexivity|]. now apply (names_uniq n r n' r').
Qed.
Lemma named_in n : n = B "pre" -> In n blocks. Proof. intros ->. vm_compute. tauto. Qed.
Lemma code_not : ~ In (B "code") blocks.
Proof. intro H. apply (in_list_in _ block_tags) in H. vm_compute in H. discriminate. Qed.
Lemma lies_fun l d v : lies l d v -> forall d' v', lies l d' v' -> v = v'.
Proof.
  intro H. induction H; intros d' v' H'; inversion H';
    repeat match goal with
    | E : _ ++ [_] = [] |- _ => now destruct (app_cons_not_nil _ _ _ (eq_sym E))
    | E : [] = _ ++ [_] |- _ => now destruct (app_cons_not_nil _ _ _ E)
    | E : _ ++ [_] = _ ++ [_] |- _ => apply app_inj_tail in E as [-> E]; try discriminate E; try (injection E as ->)
    | A : named ?t _ _, C : named ?t _ _ |- _ => destruct (named_fun _ _ _ _ _ A C) as [? ?]; subst; clear C
    | A : ?l, C : forall d v, ?l = _ -> _ |- _ => fail
    end; subst; auto.
  all: repeat match goal with
    | IH : forall d v, lies ?l d v -> _, A : lies ?l _ _ |- _ => pose proof (IH _ _ A); clear A end; subst; auto; try discriminate.
  all: try match goal with K : _ \/ _ |- _ => destruct K; subst end; try congruence; try discriminate.
  all: try (exfalso; now apply code_not).
  all: try match goal with K : ~ In (B "pre") blocks |- _ => exfalso; apply K; now apply named_in end.
Qed.

(** ** Code *)
Lemma step_code c s p r p' : step c s p = (r, p') -> w_ok (p_w p) -> opens (c :: s) -> p_pre p' = true ->
  exists t, cut_tag (c :: s) = (t, r) /\ p_w p' = w_puts_lt t (expand (p_w p)).
Proof.
  intros E Hw O V. pose proof (opens_lt _ _ O) as ->. unfold step in E.
  apply tag_opens in O as (x & T). change (ceq "<" "<") with true in E. cbv iota in E. rewrite T in E. destruct x as [[n b] v].
  set (p0 := on_w expand p) in *.
  set (p1 := if (seq_ n (B "pre") || seq_ n (B "code"))%bool then set_pre (negb b) p0 else p0) in *.
  assert (W1 : p_w p1 = expand (p_w p)) by (unfold p1; destruct (_ || _)%bool; reflexivity). clearbody p1.
  destruct (in_list n block_tags && negb (p_pre p1))%bool eqn:K.
  - destruct (block_tag_ok _ _ _ _ _ _ _ _ E) as (t & ws & _ & _ & _ & _ & P & _); [rewrite W1; now apply expand_ok|].
    apply Bool.andb_true_iff in K as [_ K]. apply Bool.negb_true_iff in K. congruence.
  - destruct (cut_tag ("<"%char :: s)) as [t q] eqn:C. injection E as <- <-. exists t. split; [reflexivity|].
    unfold on_w. match goal with |- context [if ?x then set_inl _ _ else _] => destruct x end; unfold set_inl; simpl p_w; now rewrite W1.
Qed.
Lemma step_byte c s p r p' : step c s p = (r, p') -> ~ opens (c :: s) -> p_pre p = true ->
  r = s /\ p_w p' = w_put c (expand (p_w p)) /\ p_pre p' = true.
Proof.
  intros E O V. unfold step in E.
  assert (T : (if ceq c "<" then tag_name s else None) = None).
  { destruct (ceq c "<") eqn:Cc; [|reflexivity]. apply ceq_eq in Cc. subst c. destruct (tag_name s) eqn:T; [|reflexivity].
    exfalso. apply O. apply tag_opens. eauto. }
  rewrite T in E. injection E as <- <-. split; [reflexivity|]. unfold content, write_indent. cbn [p_ls p_pre on_w]. rewrite V.
  rewrite Bool.andb_false_r. destruct (negb (p_ls p) || true || negb (ceq c NL))%bool; cbn;
    (destruct (ceq c NL); [|destruct (isspace c)]; split; [reflexivity|assumption|reflexivity|assumption|reflexivity|assumption]).
Qed.
Lemma writes_ext k t w w' : writes k t w w' -> exists z, w_out w' = w_out w ++ z.
Proof.
  intros (w1 & w2 & i & j & _ & (u & _ & _ & U & _) & (_ & _ & D & _) & (v & _ & _ & V & _)).
  rewrite V. destruct D as [-> | ->]; rewrite U, <- !app_assoc; eauto.
Qed.
Lemma loop_ext : forall fuel s p w, w_ok (p_w p) -> pretty_loop fuel s p = Some w -> exists z, w_out w = w_out (p_w p) ++ z.
Proof.
  induction fuel as [|fuel IH]; intros s p w Hw E; [discriminate|]. destruct s as [|c s].
  - injection E as <-. exists []. now rewrite app_nil_r.
  - cbn [pretty_loop] in E. destruct (step c s p) as [r p'] eqn:X.
    destruct (step_ok _ _ _ _ _ X Hw) as (q & ws & _ & _ & _ & _ & W & _).
    destruct (expand_ok _ Hw) as [Hx Ox].
    destruct (writes_ok _ _ _ _ Hx W) as (Hw' & _).
    destruct (writes_ext _ _ _ _ W) as (z & Z). destruct (IH _ _ _ Hw' E) as (z' & ->). rewrite Z, Ox, <- app_assoc. eauto.
Qed.
Lemma cut_byte s c l : cut s (Byte c :: l) -> exists s', s = c :: s' /\ ~ opens (c :: s') /\ cut s' l.
Proof. intro C. inversion C; subst. eauto. Qed.
Lemma cut_tag_opens s t l : cut s (Tag t :: l) -> opens s.
Proof. intro C. inversion C; subst; [|assumption]. now apply opens_app. Qed.
Lemma bytes_kept n l : 0 < n -> forall x fuel s p a b w, fits n l a s p -> p_pre p = true -> cut s (map Byte x ++ b) ->
  pretty_loop fuel s p = Some w -> exists z, w_out w = w_out (p_w p) ++ x ++ z.
Proof.
  intro Hn. induction x as [|c x IH]; intros fuel s p a b w F V C E.
  - apply loop_ext in E; [exact E|apply F].
  - cbn in C. destruct (cut_byte _ _ _ C) as (s' & -> & O & C'). destruct fuel as [|fuel]; [discriminate|]. cbn [pretty_loop] in E.
    destruct (step c s' p) as [r p'] eqn:X. destruct (step_byte _ _ _ _ _ X O V) as (-> & W & V').
    destruct (step_fits _ _ _ _ _ _ _ _ Hn F X) as (q & ws & S0 & NE & _ & _ & R & _ & F').
    destruct (IH _ _ _ _ _ _ F' V' C' E) as (z & ->). exists z. rewrite W, w_put_out by lia.
    destruct (expand_ok _ (proj1 (proj2 F))) as [_ ->]. now rewrite <- !app_assoc.
Qed.
Lemma cut_split s a b : cut s (a ++ b) -> exists r, cut r b.
Proof.
  revert s. induction a as [|x a IH]; intros s C; [eauto|]. inversion C; subst; try (eapply IH; eassumption).
  destruct a; [|discriminate]. cbn in *. subst. exists []. constructor.
Qed.
Lemma tag_kept n l a1 t x b1 d : 0 < n -> l = a1 ++ Tag t :: map Byte x ++ b1 -> lies (a1 ++ [Tag t]) d true ->
  forall fuel s p a w, fits n l a s p -> length a <= length a1 -> pretty_loop fuel s p = Some w ->
  exists y z, w_out w = y ++ t ++ x ++ z.
Proof.
  intros Hn El Y. induction fuel as [|fuel IH]; intros s p a w F L E; [discriminate|].
  pose proof F as (_ & Hw & _ & _ & (b & Eb & Cb) & _).
  assert (LL : length l = length a1 + S (length x + length b1)) by (rewrite El; rewrite app_length; cbn; rewrite app_length, map_length; reflexivity).
  destruct s as [|c s].
  - apply cut_nil in Cb. subst b. rewrite app_nil_r in Eb. subst a. lia.
  - cbn [pretty_loop] in E. destruct (step c s p) as [r p'] eqn:X.
    destruct (step_fits _ _ _ _ _ _ _ _ Hn F X) as (q & ws & S0 & NE & AW & C & R & _ & F').
    destruct (cut_exists r) as (b' & Cr). pose proof (cut_fun _ _ Cb _ (C _ Cr)). subst b.
    destruct (Nat.eq_dec (length a) (length a1)) as [Q|Q].
    + assert (A : a = a1 /\ q :: map Byte ws ++ b' = Tag t :: map Byte x ++ b1).
      { rewrite El in Eb. clear - Eb Q. revert a1 Q Eb. induction a as [|u a IH]; intros [|v a1] Q Eb; try discriminate.
        - auto.
        - injection Eb as -> Eb. injection Q as Q. destruct (IH _ Q Eb) as [-> Z]. auto. }
      destruct A as [-> A]. injection A as -> A.
      pose proof (cut_tag_opens _ _ _ Cb) as O.
      assert (V : p_pre p' = true).
      { destruct F' as (_ & _ & _ & _ & _ & (d' & Y' & _)). symmetry. eapply lies_fun; [|exact Y']. apply lies_bytes. exact Y. }
      destruct (step_code _ _ _ _ _ X Hw O V) as (t' & CT & W).
      pose proof (cut_fun _ _ Cb _ (cut_tag_cut _ _ _ CT O _ Cr)) as Z. injection Z as -> Z.
      assert (ws = []) as ->.
      { apply (f_equal (@length _)) in Z. rewrite app_length, map_length in Z. destruct ws; [reflexivity|]. cbn in Z. lia. }
      cbn in A. rewrite A in Cr.
      destruct (bytes_kept n l Hn x _ _ _ _ _ _ F' V Cr E) as (z & ->). exists (w_out (p_w p)), z.
      rewrite W. rewrite w_puts_lt_out by assumption. destruct (expand_ok _ Hw) as [_ ->]. now rewrite <- !app_assoc.
    + apply (IH r p' ((a ++ [q]) ++ map Byte ws) w F'); [|assumption].
      rewrite !app_length, map_length. cbn. destruct (Nat.le_gt_cases (length a + 1 + length ws) (length a1)) as [|G]; [assumption|].
      exfalso. assert (N : nth_error l (length a1) = Some (Tag t)).
      { rewrite El, nth_error_app2, Nat.sub_diag by lia. reflexivity. }
      rewrite Eb, nth_error_app2 in N by lia. destruct (length a1 - length a) as [|k] eqn:K; [lia|]. cbn in N.
      rewrite nth_error_app1 in N by (rewrite map_length; lia). apply nth_error_In, in_map_iff in N as (? & ? & _). discriminate.
Qed.

(** ** Newlines *)
Fixpoint run_ok (n : nat) (s : str) : Prop :=
  match s with
  | [] => True
  | c :: s' => if ceq c NL then S n <= 2 /\ run_ok (S n) s' else run_ok 0 s'
  end.
Lemma collapse_ok x : forall n z, run_ok n x -> exists k, collapse n (x ++ z) = x ++ collapse k z.
Proof.
  induction x as [|c x IH]; intros n z H; [now exists n|]. cbn in *. destruct (ceq c NL).
  - destruct H as [L H]. destruct n as [|[|n]]; [| |lia]; cbn [Nat.leb];
      (destruct (IH _ z H) as (k & ->); now exists k).
  - destruct (IH _ z H) as (k & ->). now exists k.
Qed.
Lemma collapse_any u : forall n c z, c <> NL -> exists u', collapse n (u ++ c :: z) = u' ++ c :: collapse 0 z.
Proof.
  induction u as [|e u IH]; intros n c z H; cbn.
  - apply ceq_neq in H. rewrite H. now exists [].
  - destruct (ceq e NL).
    + destruct (IH (S n) c z H) as (u' & ->). destruct n as [|[|n]]; cbn [Nat.leb]; [now exists (e :: u')|now exists (e :: u')|now exists u'].
    + destruct (IH 0 c z H) as (u' & ->). now exists (e :: u').
Qed.
Lemma run_ok_spec x : (forall a b, x <> a ++ [NL; NL; NL] ++ b) -> run_ok 0 x.
Proof.
  intro H. assert (G : forall x n, n <= 2 -> (forall a b, repeat NL n ++ x <> a ++ [NL; NL; NL] ++ b) -> run_ok n x).
  { clear. induction x as [|c x IH]; intros n L H; [exact I|]. cbn. destruct (ceq c NL) eqn:E.
    - apply ceq_eq in E. subst c. destruct n as [|[|[|n]]]; [| |exfalso; apply (H [] x); reflexivity|lia];
        (split; [lia|]; apply IH; [lia|]; exact H).
    - apply IH; [lia|]. intros a b Z. cbn in Z. apply (H (repeat NL n ++ c :: a) b). rewrite Z, <- app_assoc. reflexivity. }
  apply (G x 0); [lia|assumption].
Qed.
Lemma code_kept html a t x b d : cut html (a ++ Tag t :: map Byte x ++ b) ->
  moderate (a ++ Tag t :: map Byte x ++ b) -> lies (a ++ [Tag t]) d true ->
  (forall u v, x <> u ++ [NL; NL; NL] ++ v) ->
  exists out y z, pretty html = Some (out, false) /\ out = y ++ x ++ z /\ (x <> [] -> exists y', y = y' ++ [">"%char]).
Proof.
  intros C M Y N.
  assert (NE : html <> []) by (intros ->; apply cut_nil in C; destruct a; discriminate).
  destruct (start_fits _ _ NE C M) as [Hn F].
  destruct (loop_fits _ _ Hn (S (length html)) _ _ _ F) as (w & E & O & _); [lia|].
  destruct (tag_kept _ _ a t x b d Hn eq_refl Y _ _ _ [] _ F (Nat.le_0_l _) E) as (y & z & W).
  unfold pretty. fold (start html). rewrite E. cbn [option_map]. rewrite O, W.
  destruct x as [|c0 x0] eqn:Ex.
  - eexists _, _, []. split; [reflexivity|]. split; [cbn [app]; symmetry; apply app_nil_r|congruence].
  - assert (T : exists t', t = t' ++ [">"%char]).
    { destruct (cut_split _ _ _ C) as (r & Cr). inversion Cr; subst; eauto. }
    destruct T as (t' & ->). rewrite <- Ex in *.
    replace (y ++ (t' ++ [">"%char]) ++ x ++ z) with ((y ++ t') ++ ">"%char :: x ++ z) by (rewrite <- !app_assoc; reflexivity).
    destruct (collapse_any (y ++ t') 0 ">"%char (x ++ z)) as (u & ->); [discriminate|].
    destruct (collapse_ok x 0 z (run_ok_spec x N)) as (k & ->).
    exists (u ++ ">"%char :: x ++ collapse k z), (u ++ [">"%char]), (collapse k z). split; [reflexivity|].
    split; [now rewrite <- app_assoc|]. intros _. now exists u.
Qed.
