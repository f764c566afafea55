(** Proofs about reading command-line metadata and transform chains. *)
From Verif Require Import Base BaseL M_Meta S_Meta L_Meta.

Lemma strchr_at c a b : ~ In c a -> strchr c (a ++ c :: b) = Some (length a).
Proof. intros N. apply strchr_some. exists a, b. auto. Qed.

Lemma cut_at c a b : ~ In c a -> cut c (a ++ c :: b) = Some (a, b).
Proof.
  intros N. unfold cut. rewrite strchr_at by exact N. f_equal. f_equal.
  - rewrite firstn_app, Nat.sub_diag, firstn_all. apply app_nil_r.
  - replace (a ++ c :: b) with ((a ++ [c]) ++ b) by (rewrite <- app_assoc; reflexivity).
    rewrite skipn_app, app_length. cbn [length].
    rewrite skipn_all2 by (rewrite app_length; cbn; lia).
    replace (S (length a) - (length a + 1)) with 0 by lia. reflexivity.
Qed.

Lemma cut_none c s : ~ In c s -> cut c s = None.
Proof. intros N. unfold cut. rewrite (proj2 (strchr_none c s) N). reflexivity. Qed.

Lemma span_spaces s c r :
  Forall space_byte s -> isspace c = false -> span isspace (s ++ c :: r) = (s, c :: r).
Proof.
  intros F N. induction F as [|x s X F IH]; cbn [app span].
  - rewrite N. reflexivity.
  - rewrite (proj2 (isspace_spec x) X), IH. reflexivity.
Qed.

Lemma span_all_spaces s : Forall space_byte s -> span isspace s = (s, []).
Proof.
  induction 1 as [|x s X F IH]; [reflexivity|]. cbn [span].
  rewrite (proj2 (isspace_spec x) X), IH. reflexivity.
Qed.

Lemma rtrim_solid a c : isspace c = false -> rtrim (a ++ [c]) = a ++ [c].
Proof.
  intros N. induction a as [|x a IH]; cbn [app rtrim]; [rewrite N; reflexivity|].
  rewrite IH. destruct a; reflexivity.
Qed.

Lemma trim_solid s : ends_solid s -> trim_in_place s = s.
Proof.
  unfold trim_in_place. intros [F|(a & c & -> & N)].
  - rewrite span_all_spaces by exact F. reflexivity.
  - apply isspace_false in N. destruct (span isspace (a ++ [c])) as [lead rest] eqn:E.
    pose proof (span_app _ _ _ _ E) as A. destruct rest as [|r0 rest]; [reflexivity|].
    rewrite A. f_equal.
    destruct (exists_last (l := r0 :: rest)) as (r1 & d & E2); [discriminate|].
    rewrite E2 in *. rewrite app_assoc in A. apply app_inj_tail in A as [_ <-].
    apply rtrim_solid, N.
Qed.

Lemma word_alnum c : word_byte c -> (isalnum c || ceq c "_")%bool = true /\ isspace c = false.
Proof.
  intros W. split.
  - unfold isalnum, isalpha, isupper, islower, isdigit, between.
    unfold word_byte in W. destruct W as [W|[W|[W|W]]]; try (subst c; reflexivity); lia.
  - apply isspace_false. unfold word_byte, space_byte in *. intros [->|H].
    + destruct W as [W|[W|[W|W]]]; try (cbn in W; lia); discriminate.
    + destruct W as [W|[W|[W|W]]]; try lia. subst c. cbn in H. lia.
Qed.

Definition tail_of (ps : list written) : str :=
  match ps with [] => [] | _ => ","%char :: write_pairs ps end.

Lemma write_pairs_cons p ps : write_pairs (p :: ps) = write_pair p ++ tail_of ps.
Proof. destruct ps; cbn [write_pairs tail_of]; [symmetry; apply app_nil_r|reflexivity]. Qed.

Lemma starts_pair_written ps :
  ps <> [] -> Forall plain_pair ps -> starts_pair (write_pairs ps) = true.
Proof.
  intros N F. destruct ps as [|[[[s k] h] v] ps]; [congruence|].
  inversion F as [|? ? Fp _]; subst. cbn [plain_pair] in Fp. destruct Fp as (Fs & ((c & r & -> & W) & _ & K1 & K2) & _).
  rewrite write_pairs_cons. cbn [write_pair]. rewrite <- app_assoc. cbn [app].
  destruct (word_alnum c W) as [W1 W2].
  unfold starts_pair. rewrite span_spaces by (auto). cbn [snd].
  change (at_ (c :: _) 0) with c. rewrite W1.
  set (t := (r ++ "="%char :: write_value h v) ++ tail_of ps).
  assert (Et : c :: t = (c :: r) ++ "="%char :: (write_value h v ++ tail_of ps)).
  { unfold t. rewrite <- app_assoc. reflexivity. }
  rewrite Et, strchr_at by exact K1.
  destruct (strchr "," ((c :: r) ++ "="%char :: write_value h v ++ tail_of ps)) as [j|] eqn:Ej; [|reflexivity].
  apply strchr_some in Ej as (a & b & E & L & Na).
  destruct (Nat.ltb_spec (length (c :: r)) j) as [H|H]; [reflexivity|]. exfalso.
  assert (X : In ","%char ((c :: r) ++ ["="%char])).
  { replace ((c :: r) ++ "="%char :: write_value h v ++ tail_of ps)
      with (((c :: r) ++ ["="%char]) ++ (write_value h v ++ tail_of ps)) in E
      by (rewrite <- app_assoc; reflexivity).
    apply (f_equal (firstn (S j))) in E.
    rewrite firstn_app in E.
    replace (S j - length ((c :: r) ++ ["="%char])) with 0 in E by (rewrite app_length; cbn in *; lia).
    rewrite firstn_O, app_nil_r in E.
    rewrite (firstn_app (S j) a), (firstn_all2 a) in E by lia.
    replace (S j - length a) with 1 in E by lia. change (firstn 1 (","%char :: b)) with [","%char] in E.
    assert (Y : In ","%char (firstn (S j) ((c :: r) ++ ["="%char]))) by (rewrite E; apply in_elt).
    rewrite <- (firstn_skipn (S j) ((c :: r) ++ ["="%char])). apply in_or_app; auto. }
  apply in_app_or in X as [X|[X|[]]]; [exact (K2 X)|discriminate].
Qed.

Lemma tail_head ps : tail_of ps = [] \/ exists r, tail_of ps = ","%char :: r.
Proof. destruct ps; [left|right]; cbn; eauto. Qed.

Lemma quote_head h v t :
  plain_value h v -> (t = [] \/ exists r, t = ","%char :: r) ->
  (ceq (at_ (write_value h v ++ t) 0) DQ || ceq (at_ (write_value h v ++ t) 0) SQ)%bool =
  match h with Bare => false | Quoted _ => true end.
Proof.
  intros P T. destruct h as [|q]; cbn [write_value].
  - destruct P as (_ & _ & P1 & P2). destruct v as [|c v].
    + destruct T as [->|[r ->]]; reflexivity.
    + cbn [app]. change (at_ (c :: _) 0) with c. apply orb_false_iff. split; apply ceq_neq; intros ->.
      * exact (P1 v eq_refl).
      * exact (P2 v eq_refl).
  - change (at_ _ 0) with q. destruct P as [[->| ->] _]; reflexivity.
Qed.

Lemma skipn_key (k : str) x t : skipn (S (length k)) (k ++ x :: t) = t.
Proof.
  replace (k ++ x :: t) with ((k ++ [x]) ++ t) by (rewrite <- app_assoc; reflexivity).
  rewrite skipn_app, skipn_all2 by (rewrite app_length; cbn; lia).
  rewrite app_length. cbn [length]. replace (S (length k) - (length k + 1)) with 0 by lia. reflexivity.
Qed.

Lemma pair_length_written k h v ps :
  ~ In "="%char k -> plain_value h v -> Forall plain_pair ps ->
  pair_length (k ++ "="%char :: write_value h v ++ tail_of ps) (length k)
  = length (k ++ "="%char :: write_value h v).
Proof.
  intros K P F. unfold pair_length. rewrite skipn_key.
  rewrite quote_head by (auto using tail_head). destruct h as [|q]; cbn [write_value].
  - destruct P as (P & _). destruct ps as [|p ps].
    + cbn [tail_of]. rewrite app_nil_r, (proj2 (strchr_none "," v) P). reflexivity.
    + cbn [tail_of]. rewrite strchr_at by exact P.
      rewrite skipn_key, starts_pair_written by (auto; discriminate).
      rewrite app_length. cbn [length]. lia.
  - destruct P as [_ P]. cbn [app]. change (at_ (q :: _) 0) with q. cbn [skipn].
    rewrite <- app_assoc. cbn [app]. rewrite strchr_at by exact P.
    rewrite !app_length. cbn [length]. rewrite app_length. cbn [length]. lia.
Qed.

Lemma parse_pair_written k h v :
  plain_key k -> plain_value h v ->
  parse_pair (k ++ "="%char :: write_value h v) = Some (k, v).
Proof.
  intros (_ & K1 & K2 & _) P. unfold parse_pair. rewrite cut_at by exact K2.
  pose proof (quote_head h v [] P (or_introl eq_refl)) as Q. rewrite app_nil_r in Q. rewrite Q.
  rewrite (trim_solid k K1). destruct h as [|q]; cbn [write_value].
  - destruct P as (P1 & P2 & _). rewrite cut_none by exact P1. rewrite trim_solid by exact P2. reflexivity.
  - destruct P as [_ P]. change (at_ (q :: _) 0) with q. cbn [skipn].
    rewrite cut_at by exact P. reflexivity.
Qed.

Lemma command_written ps : forall fuel items,
  length (write_pairs ps) < fuel -> Forall plain_pair ps ->
  command_loop fuel (write_pairs ps) items = Some (rev (map pair_of ps) ++ items).
Proof.
  induction ps as [|[[[s k] h] v] ps IH]; intros fuel items Lf F.
  - destruct fuel; [cbn in Lf; lia|]. reflexivity.
  - inversion F as [|? ? Fq Fp]; subst. cbn [plain_pair] in Fq. destruct Fq as (Fs & Pk & Pv).
    pose proof Pk as ((c & r & Ek & W) & _ & K1 & K2).
    rewrite write_pairs_cons in *. cbn [write_pair] in *.
    destruct fuel as [|fuel]; [lia|]. cbn [command_loop].
    destruct (word_alnum c W) as [_ W2].
    assert (E1 : snd (span isspace ((s ++ k ++ "="%char :: write_value h v) ++ tail_of ps))
               = k ++ "="%char :: write_value h v ++ tail_of ps).
    { rewrite <- !app_assoc. cbn [app]. rewrite Ek. cbn [app]. rewrite span_spaces by auto. reflexivity. }
    rewrite E1. set (T := k ++ "="%char :: write_value h v ++ tail_of ps).
    assert (ET : exists x y, T = x :: y) by (unfold T; rewrite Ek; cbn [app]; eauto).
    destruct ET as (x & y & ET). rewrite ET, <- ET.
    assert (S1 : strchr "=" T = Some (length k)) by (apply strchr_at, K1). rewrite S1.
    assert (S2 : pair_length T (length k) = length (k ++ "="%char :: write_value h v))
      by (apply pair_length_written; auto).
    rewrite S2.
    assert (ET2 : T = (k ++ "="%char :: write_value h v) ++ tail_of ps)
      by (unfold T; rewrite <- app_assoc; reflexivity).
    assert (S3 : firstn (length (k ++ "="%char :: write_value h v)) T = k ++ "="%char :: write_value h v).
    { rewrite ET2, firstn_app, Nat.sub_diag, firstn_all. apply app_nil_r. }
    rewrite S3, parse_pair_written by auto.
    assert (S4 : at_ T (length (k ++ "="%char :: write_value h v)) = at_ (tail_of ps) 0).
    { unfold at_. rewrite ET2, app_nth2, Nat.sub_diag by lia. reflexivity. }
    rewrite S4. cbn [map pair_of rev]. destruct ps as [|p ps].
    + reflexivity.
    + cbn [tail_of]. change (at_ (","%char :: _) 0) with ","%char. rewrite ceq_refl.
      assert (S5 : skipn (S (length (k ++ "="%char :: write_value h v))) T = write_pairs (p :: ps))
        by (rewrite ET2; apply skipn_key).
      rewrite S5. unfold add_item. rewrite IH; [|clear - Lf; cbn [tail_of] in Lf; rewrite app_length in Lf; cbn [length] in Lf; lia|exact Fp].
      rewrite <- app_assoc. reflexivity.
Qed.

Lemma parse_written ps :
  Forall plain_pair ps -> parse_command (write_pairs ps) = Some (rev (map pair_of ps)).
Proof.
  intros F. unfold parse_command. rewrite command_written by (auto; lia). rewrite app_nil_r. reflexivity.
Qed.

(** The reader always returns. *)
Lemma pair_length_pos p e : strchr "=" p = Some e -> e < pair_length p e <= length p + 1.
Proof.
  intros H. apply strchr_some in H as (a & b & -> & La & _). subst e. unfold pair_length.
  rewrite skipn_key. rewrite app_length. cbn [length].
  destruct (_ || _)%bool.
  - destruct (strchr (at_ b 0) (skipn 1 b)) as [q|] eqn:E; [|lia].
    apply strchr_some in E as (x & y & E & Lx & _).
    apply (f_equal (@length ascii)) in E. rewrite app_length, skipn_length in E. cbn [length] in E. lia.
  - destruct (strchr "," b) as [j|] eqn:E; [|lia].
    destruct (starts_pair _); [|lia].
    apply strchr_some in E as (x & y & E & Lx & _). subst b. rewrite app_length. cbn [length]. lia.
Qed.

Lemma command_total fuel : forall p items,
  length p < fuel -> exists m, command_loop fuel p items = Some m.
Proof.
  induction fuel as [|fuel IH]; intros p items L; [lia|]. cbn [command_loop].
  destruct (span isspace p) as [lead p1] eqn:E. cbn [snd].
  apply span_app in E. subst p. rewrite app_length in L.
  destruct p1 as [|c p1]; [eauto|]. set (P := c :: p1) in *.
  destruct (strchr "=" P) as [e|] eqn:Ee; [|eauto].
  destruct (ceq _ ","); [|eauto]. apply IH.
  rewrite skipn_length. pose proof (pair_length_pos _ _ Ee). unfold P in *. cbn [length] in *. lia.
Qed.

Lemma parse_total arg : exists m, parse_command arg = Some m.
Proof. apply command_total. lia. Qed.

(** ** Truth words *)
Lemma lower_word v w : forallb islower w = true \/ forallb isdigit w = true ->
  (seq_ (map tolower v) w = true <-> says w v).
Proof.
  intros H. unfold says. rewrite <- casecmp_ci, casecmp_map, seq_eq.
  assert (E : map tolower w = w).
  { rewrite <- (map_id w) at 2. apply map_ext_in. intros c I.
    unfold tolower. destruct (isupper c) eqn:U; [|reflexivity]. exfalso.
    unfold isupper, islower, isdigit, between in *.
    destruct H as [H|H]; rewrite forallb_forall in H; specialize (H c I); cbv beta in H; lia. }
  rewrite E. reflexivity.
Qed.

Lemma is_true_ok v :
  is_true_value v = true <-> says (B "true") v \/ says (B "yes") v \/ says (B "1") v.
Proof.
  unfold is_true_value. rewrite !orb_true_iff, !lower_word by (vm_compute; auto). tauto.
Qed.
Lemma is_false_ok v :
  is_false_value v = true <-> says (B "false") v \/ says (B "no") v \/ says (B "0") v.
Proof.
  unfold is_false_value. rewrite !orb_true_iff, !lower_word by (vm_compute; auto). tauto.
Qed.

Lemma true_false v : is_true_value v = true -> is_false_value v = false.
Proof.
  unfold is_true_value, is_false_value. rewrite !orb_true_iff, !seq_eq.
  intros [[-> | ->]| ->]; reflexivity.
Qed.

(** ** Transform chains *)
Lemma span_name n c r :
  ~ In ":"%char n -> ~ In "("%char n -> (c = ":"%char \/ c = "("%char) ->
  span (fun c => negb (ceq c ":" || ceq c "(")) (n ++ c :: r) = (n, c :: r).
Proof.
  intros N1 N2 C. induction n as [|x n IH]; cbn [app span].
  - destruct C as [-> | ->]; reflexivity.
  - assert (X1 : ceq x ":" = false) by (apply ceq_neq; intros ->; apply N1; left; reflexivity).
    assert (X2 : ceq x "(" = false) by (apply ceq_neq; intros ->; apply N2; left; reflexivity).
    rewrite X1, X2. cbn [negb orb].
    rewrite IH; [reflexivity|intros H; apply N1; right; exact H|intros H; apply N2; right; exact H].
Qed.
Lemma span_name_end n :
  ~ In ":"%char n -> ~ In "("%char n ->
  span (fun c => negb (ceq c ":" || ceq c "(")) n = (n, []).
Proof.
  intros N1 N2. induction n as [|x n IH]; [reflexivity|]. cbn [span].
  assert (X1 : ceq x ":" = false) by (apply ceq_neq; intros ->; apply N1; left; reflexivity).
  assert (X2 : ceq x "(" = false) by (apply ceq_neq; intros ->; apply N2; left; reflexivity).
  rewrite X1, X2. cbn [negb orb].
  rewrite IH; [reflexivity|intros H; apply N1; right; exact H|intros H; apply N2; right; exact H].
Qed.

Definition links_body (ls : list link) : str := skipn 1 (write_links ls).

Lemma links_shape l ls :
  links_body (l :: ls) = write_link l ++ match ls with [] => [] | _ => ":"%char :: links_body ls end.
Proof. destruct ls; reflexivity. Qed.

Lemma chain_written ls : forall fuel,
  length (links_body ls) < fuel -> Forall plain_link ls ->
  chain_loop fuel (links_body ls) = Some (Some ls).
Proof.
  induction ls as [|[n o] ls IH]; intros fuel L F.
  - destruct fuel; [cbn in L; lia|]. reflexivity.
  - inversion F as [|? ? (P1 & P2 & P3 & P4) Fl]; subst. cbn [fst snd] in *.
    set (tl := match ls with [] => [] | _ => ":"%char :: links_body ls end).
    rewrite links_shape in *. fold tl in L |- *.
    destruct fuel as [|fuel]; [lia|]. cbn [chain_loop].
    assert (NE : exists x y, write_link (n, o) ++ tl = x :: y).
    { destruct n as [|x n]; [congruence|]. destruct o; cbn; eauto. }
    destruct NE as (x & y & NE). rewrite NE, <- NE. cbn [write_link] in *.
    assert (Rest : forall o', (if ceq (at_ tl 0) ":"
                   then match chain_loop fuel (skipn 1 tl) with
                        | Some (Some r) => Some (Some ((n, o') :: r))
                        | other => other
                        end
                   else Some (Some [(n, o')])) = Some (Some ((n, o') :: ls))).
    { intros o'. subst tl. destruct ls as [|l2 ls]; [reflexivity|].
      change (at_ (":"%char :: _) 0) with ":"%char. rewrite ceq_refl. cbn [skipn].
      rewrite IH; [reflexivity| |exact Fl].
      clear - L. rewrite app_length in L. cbn [length] in L. lia. }
    destruct o as [o|].
    + rewrite <- app_assoc. cbn [app]. rewrite span_name by auto.
      change (at_ ("("%char :: _) 0) with "("%char. rewrite ceq_refl. cbn [skipn].
      rewrite <- app_assoc. cbn [app]. rewrite cut_at by exact P4. apply Rest.
    + assert (E : span (fun c => negb (ceq c ":" || ceq c "(")) (n ++ tl) = (n, tl)).
      { subst tl. destruct ls; [rewrite app_nil_r; apply span_name_end; auto|apply span_name; auto]. }
      rewrite E.
      assert (E2 : ceq (at_ tl 0) "(" = false) by (subst tl; destruct ls; reflexivity).
      rewrite E2. apply Rest.
Qed.

Lemma parse_chain_written key ls :
  ~ In ":"%char key -> Forall plain_link ls ->
  parse_chain (key ++ write_links ls) = Some (Some (key, ls)).
Proof.
  intros K F. unfold parse_chain. destruct ls as [|l ls].
  - cbn [write_links]. rewrite app_nil_r, cut_none by exact K. reflexivity.
  - replace (key ++ write_links (l :: ls)) with (key ++ ":"%char :: links_body (l :: ls)) by reflexivity.
    rewrite cut_at by exact K. rewrite chain_written by (auto; lia). reflexivity.
Qed.

Lemma chain_total fuel : forall p, length p < fuel -> exists r, chain_loop fuel p = Some r.
Proof.
  induction fuel as [|fuel IH]; intros p L; [lia|]. cbn [chain_loop].
  destruct p as [|c p]; [eauto|]. set (P := c :: p) in *.
  destruct (span _ P) as [n p1] eqn:E. apply span_app in E.
  assert (R : forall o p2, length p2 <= length P -> exists r,
     (if ceq (at_ p2 0) ":"
      then match chain_loop fuel (skipn 1 p2) with
           | Some (Some r) => Some (Some ((n, o) :: r))
           | other => other
           end
      else Some (Some [(n, o)])) = Some r).
  { intros o p2 L2. destruct (ceq (at_ p2 0) ":") eqn:C; [|eauto].
    destruct p2 as [|d p2]; [discriminate|].
    destruct (IH (skipn 1 (d :: p2))) as [r ->]; [cbn [skipn length] in *; lia|].
    destruct r; eauto. }
  assert (Lp : length p1 <= length P) by (rewrite E, app_length; lia).
  destruct (ceq (at_ p1 0) "("); [|apply R, Lp].
  unfold cut. destruct (strchr ")" (skipn 1 p1)) as [i|]; [|eauto].
  apply R. rewrite !skipn_length. lia.
Qed.

Lemma parse_chain_total input : exists r, parse_chain input = Some r.
Proof.
  unfold parse_chain. destruct (cut ":" input) as [[k p]|]; [|eauto].
  destruct (chain_total (S (length p)) p) as [r ->]; [lia|]. destruct r; eauto.
Qed.
