(** Lemmas for C195-C203. *)
From Verif Require Import Base BaseL M_HtmlMd S_HtmlMd L_Divs L_Divs2.
Local Arguments isspace : simpl never.
Local Arguments isalpha : simpl never.
Local Arguments isdigit : simpl never.
Local Arguments M_HtmlMd.key : simpl never.

Lemma name_spec c : name_char c = true <-> name_byte c.
Proof. unfold name_char, name_byte. rewrite !orb_true_iff, !ceq_eq. tauto. Qed.
Lemma drop_space_word w r : w <> [] -> Forall (fun c => isspace c = false) w -> drop_space (w ++ r) = w ++ r.
Proof. intros Z F. destruct w as [|c w]; [congruence|]. inversion F as [|? ? C _]; subst. unfold drop_space. cbn [app span]. rewrite C. reflexivity. Qed.
Lemma word_space w : word w -> w <> [] /\ Forall (fun c => isspace c = false) w.
Proof. intros [Z F]. split; [exact Z|]. revert F. apply Forall_impl. intros c [C _]. exact C. Qed.
Lemma drop_sp s : drop_space (SP :: s) = drop_space s.
Proof. unfold drop_space. change (span isspace (SP :: s)) with (let (a, b) := span isspace s in (SP :: a, b)). destruct (span isspace s). reflexivity. Qed.
Definition flat (ws : list str) : str := flat_map (fun w => SP :: w) ws.
Lemma flat_app a b : flat (a ++ b) = flat a ++ flat b.
Proof. apply flat_map_app. Qed.
Lemma other_starts w r : other w -> (r = [] \/ exists r', r = SP :: r') -> starts M_HtmlMd.key (w ++ r) = false.
Proof.
  intros [W N] R. destruct (starts _ _) eqn:S; [|reflexivity]. exfalso. apply N. apply starts_spec in S as [y E].
  destruct R as [->|[r' ->]]; [rewrite app_nil_r in E; exists y; exact E|].
  apply (prefix_within M_HtmlMd.key SP) in E; [exact E|]. vm_compute. intuition discriminate.
Qed.
Lemma span_nonspace w r : Forall (fun c => isspace c = false) w -> (r = [] \/ exists r', r = SP :: r') -> span (fun c => negb (isspace c)) (w ++ r) = (w, r).
Proof.
  intros F R. apply span_word.
  - revert F. apply Forall_impl. intros c C. rewrite C. reflexivity.
  - destruct R as [->|[r' ->]]; [auto|]. right. exists SP, r'. auto.
Qed.
Lemma flat_shape l : flat l = [] \/ exists r, flat l = SP :: r.
Proof. destruct l as [|w l]; [left; reflexivity|right; exists (w ++ flat l); reflexivity]. Qed.
Lemma flat_shape2 l y : (exists r, flat l ++ SP :: y = SP :: r).
Proof. destruct l as [|w l]; [exists y; reflexivity|exists ((w ++ flat l) ++ SP :: y); reflexivity]. Qed.
Lemma attr_others l : forall fuel after, Forall other l -> length (flat l) < fuel -> attr_value fuel (flat l) after = None.
Proof.
  induction l as [|w l IH]; intros fuel after F L; (destruct fuel as [|fuel]; [lia|]); [reflexivity|]. inversion F as [|? ? W F']; subst. destruct (word_space w (proj1 W)) as [Z Sw].
  change (flat (w :: l)) with (SP :: w ++ flat l) in L |- *. cbn [attr_value]. rewrite drop_sp, (drop_space_word w _ Z Sw). rewrite (other_starts w (flat l) W (flat_shape l)).
  rewrite (span_nonspace w (flat l) Sw (flat_shape l)). cbn [snd]. apply IH; [exact F'|]. cbn [length] in L. rewrite app_length in L. lia.
Qed.
Lemma strchr_quote q v r : ~ In q v -> strchr q (v ++ q :: r) = Some (length v).
Proof. apply strchr_at. Qed.
Lemma word_app w : word (key ++ w) -> Forall (fun c => isspace c = false /\ c <> ">"%char) w.
Proof. intros [_ F]. apply Forall_app in F as [_ F]. exact F. Qed.
Lemma attr_found l1 v x l2 : forall fuel after, Forall other l1 -> Value v x -> at_ after 0 = ">"%char -> length (flat (l1 ++ (key ++ x) :: l2)) < fuel ->
  attr_value fuel (flat (l1 ++ (key ++ x) :: l2)) after = Some v.
Proof.
  intros fuel after F V A. revert fuel. induction l1 as [|w l IH]; intros fuel L; (destruct fuel as [|fuel]; [lia|]).
  - cbn [app] in *. change (flat ((key ++ x) :: l2)) with (SP :: (key ++ x) ++ flat l2) in *. destruct V as (W & Lv & V). destruct (word_space _ W) as [Z Sw].
    cbn [attr_value]. rewrite drop_sp, (drop_space_word (key ++ x) _ Z Sw). rewrite <- app_assoc.
    assert (S : starts M_HtmlMd.key (key ++ x ++ flat l2) = true) by (apply starts_spec; eexists; reflexivity). rewrite S.
    change (skipn 9 (key ++ x ++ flat l2)) with (x ++ flat l2). pose proof (word_app x W) as Fx.
    assert (R : (flat l2 ++ after) = [] \/ exists c r', flat l2 ++ after = c :: r' /\ negb (isspace c || ceq c ">"%char) = false).
    { right. destruct (flat_shape l2) as [-> | [r ->]]; [destruct after as [|c r]; [discriminate|]; cbn in A; subst c; exists ">"%char, r; auto|]. exists SP, (r ++ after). auto. }
    destruct V as [(-> & N1 & N2)|(q & Q & -> & Nq & Nb)].
    + assert (Qf : match v ++ flat l2 with q :: _ => ceq q DQ || ceq q SQ | [] => false end = false).
      { destruct v as [|c v]; [cbn [app]; destruct (flat_shape l2) as [-> | [r ->]]; reflexivity|]. cbn in N1, N2 |- *. rewrite (proj2 (ceq_neq c DQ)), (proj2 (ceq_neq c SQ)) by assumption. reflexivity. }
      rewrite Qf. rewrite <- app_assoc. rewrite (span_word _ v (flat l2 ++ after)); [|revert Fx; apply Forall_impl; intros c [C1 C2]; rewrite C1, (proj2 (ceq_neq c ">"%char)) by exact C2; reflexivity|exact R].
      cbn [fst]. rewrite (proj2 (Nat.ltb_lt _ _)) by exact Lv. reflexivity.
    + assert (Qt : ceq q DQ || ceq q SQ = true) by (destruct Q as [-> | ->]; reflexivity).
      cbn [app]. rewrite Qt. cbn [skipn at_ nth]. rewrite <- !app_assoc. cbn [app]. rewrite strchr_at by exact Nq. rewrite firstn_exact by reflexivity.
      rewrite (proj2 (Nat.ltb_lt _ _)) by exact Lv. reflexivity.
  - inversion F as [|? ? W F']; subst. destruct (word_space w (proj1 W)) as [Z Sw].
    change (flat ((w :: l) ++ (key ++ x) :: l2)) with (SP :: w ++ flat (l ++ (key ++ x) :: l2)) in *. cbn [attr_value]. rewrite drop_sp, (drop_space_word w _ Z Sw).
    rewrite (other_starts w _ W (flat_shape _)). rewrite (span_nonspace w _ Sw (flat_shape _)). cbn [snd]. apply IH; [exact F'|]. cbn [length] in L. rewrite app_length in L. lia.
Qed.
Lemma span_both f (s : str) : s = fst (span f s) ++ snd (span f s).
Proof. destruct (span f s) as [a b] eqn:E. exact (span_app f s a b E). Qed.
Lemma attr_has fuel : forall a after v, attr_value fuel a after = Some v -> has key a.
Proof.
  induction fuel as [|fuel IH]; intros a after v H; [discriminate|]. cbn [attr_value] in H. destruct a as [|c0 a0]; [discriminate|]. remember (c0 :: a0) as a eqn:Ea. clear Ea.
  assert (D : exists p, a = p ++ drop_space a) by (exists (fst (span isspace a)); apply span_both).
  destruct D as [p D]. set (b := drop_space a) in *.
  destruct (starts M_HtmlMd.key b) eqn:S.
  - apply starts_spec in S as [r S]. exists p, r. rewrite D, S. reflexivity.
  - assert (E : has key (snd (span (fun c => negb (isspace c)) b))) by (eapply IH; exact H). destruct E as (u & w & E).
    exists (p ++ fst (span (fun c => negb (isspace c)) b) ++ u), w. rewrite D. rewrite (span_both (fun c => negb (isspace c)) b) at 1. rewrite E, <- !app_assoc. reflexivity.
Qed.

(** ** The start tag *)
Lemma name_span t r : Forall name_byte t -> (r = [] \/ exists c r', r = c :: r' /\ name_char c = false) -> span name_char (t ++ r) = (t, r).
Proof. intros F R. apply span_word; [|exact R]. revert F. apply Forall_impl. intros c C. apply name_spec, C. Qed.
Lemma not_name c : ~ name_byte c -> name_char c = false.
Proof. intros N. destruct (name_char c) eqn:E; [apply name_spec in E; contradiction|reflexivity]. Qed.
Lemma flat_gt l : Forall word l -> ~ In ">"%char (flat l).
Proof.
  induction 1 as [|w l [_ W] F IH]; [intros []|]. change (flat (w :: l)) with (SP :: w ++ flat l). intros [I|I]; [discriminate|]. apply in_app_or in I as [I|I]; [|contradiction].
  apply (proj1 (Forall_forall _ _) W) in I as [_ I]. congruence.
Qed.
Lemma good_words t l1 v x l2 : good_tag t l1 v x l2 -> Forall word (l1 ++ (key ++ x) :: l2).
Proof.
  intros (_ & F1 & (V & _) & F2). apply Forall_app. split; [revert F1; apply Forall_impl; intros w [W _]; exact W|]. constructor; [exact V|]. revert F2; apply Forall_impl; intros w [W _]; exact W.
Qed.
Lemma tag_length t l : length (tag t l) = 2 + length t + length (flat l).
Proof. unfold tag. rewrite !app_length. change (flat_map (fun w : list ascii => SP :: w) l) with (flat l). cbn. lia. Qed.
Lemma name_front t r : name t -> ceq (at_ (t ++ r) 0) "/"%char = false /\ ceq (at_ (t ++ r) 0) "!"%char = false.
Proof.
  intros [F L]. destruct t as [|c t]; [cbn in L; lia|]. inversion F as [|? ? C _]; subst. apply name_spec in C. cbn [app at_ nth].
  split; apply ceq_neq; intros ->; discriminate C.
Qed.
Lemma tag_found t l1 v x l2 s : good_tag t l1 v x l2 -> tag_at (start_tag t l1 x l2 ++ s) = Some (t, v, length (start_tag t l1 x l2)).
Proof.
  intros G. pose proof (good_words _ _ _ _ _ G) as W. destruct G as (Nt & F1 & V & F2). unfold start_tag. rewrite tag_length. set (l := l1 ++ (key ++ x) :: l2) in *.
  assert (E : tag t l ++ s = "<"%char :: t ++ flat l ++ ">"%char :: s) by (unfold tag; rewrite <- !app_assoc; reflexivity). rewrite E. unfold tag_at. rewrite ceq_refl.
  destruct (name_front t (flat l ++ ">"%char :: s) Nt) as [-> ->]. cbn [andb negb]. destruct Nt as [Ft Lt].
  rewrite name_span; [|exact Ft|right; unfold l; rewrite flat_app; destruct (flat_shape l1) as [-> | [r ->]]; do 2 eexists; split; reflexivity].
  replace (length t =? 0) with false by (symmetry; apply Nat.eqb_neq; lia). replace (64 <=? length t) with false by (symmetry; apply Nat.leb_gt; lia). cbn [orb].
  rewrite strchr_at by (apply flat_gt, W). rewrite firstn_exact, skipn_exact by reflexivity. 
  assert (A : attr_value (S (length (flat l))) (flat l) (">"%char :: s) = Some v) by (apply attr_found; [exact F1|exact V|reflexivity|unfold l; lia]). rewrite A.
  f_equal. f_equal. lia.
Qed.
Lemma span_names r : ~ In ">"%char (fst (span name_char r)).
Proof.
  induction r as [|c r IH]; [intros []|]. cbn [span]. destruct (name_char c) eqn:C; [|intros []]. destruct (span name_char r) as [a b]. cbn [fst] in *. intros [->|I]; [discriminate|exact (IH I)].
Qed.
Lemma tag_key s t v n : tag_at s = Some (t, v, n) -> exists i z, s = B "<" ++ i ++ B ">" ++ z /\ ~ In ">"%char i /\ has key i.
Proof.
  unfold tag_at. destruct s as [|c r]; [discriminate|]. destruct (ceq c "<"%char) eqn:Ec; [|discriminate]. apply ceq_eq in Ec. subst c. destruct (_ && _ && _); [|discriminate]. destruct (span name_char r) as [nm r'] eqn:E. destruct (_ || _); [discriminate|].
  destruct (strchr ">"%char r') as [e|] eqn:Q; [|discriminate]. destruct (attr_value _ _ _) eqn:A; [|discriminate]. intros _. apply attr_has in A as (a & b & A). pose proof (span_names r) as N. rewrite E in N. cbn [fst] in N. apply span_app in E.
  apply strchr_some in Q as (p1 & p2 & -> & Lp & Np). rewrite firstn_exact in A by congruence. subst p1.
  exists (nm ++ a ++ key ++ b), p2. split; [|split].
  - rewrite E. cbn [app]. rewrite <- !app_assoc. reflexivity.
  - rewrite in_app_iff. intros [I|I]; [exact (N I)|exact (Np I)].
  - exists (nm ++ a), b. rewrite <- !app_assoc. reflexivity.
Qed.
Lemma find_key s r : find_tag s = Some r -> ~ plain s.
Proof.
  revert r. induction s as [|c s IH]; intros r H P; [discriminate|]. cbn [find_tag] in H. destruct (tag_at (c :: s)) as [[[t v] n]|] eqn:T.
  - apply tag_key in T as (i & z & E & N & K). exact (P [] i z E N K).
  - destruct (find_tag s) as [[k t]|] eqn:F; [|discriminate]. eapply IH; [reflexivity|]. intros x i z ->. apply (P (c :: x) i z). reflexivity.
Qed.
Lemma find_none s : plain s -> find_tag s = None.
Proof. intros H. destruct (find_tag s) eqn:E; [|reflexivity]. destruct (find_key _ _ E H). Qed.
Lemma no_key_plain s : ~ has key s -> plain s.
Proof. intros N x i z -> _ (a & b & ->). apply N. exists (x ++ B "<" ++ a), (b ++ B ">" ++ z). rewrite <- !app_assoc. reflexivity. Qed.
Lemma first_within p1 p2 a b : ~ In ">"%char p1 -> p1 ++ ">"%char :: p2 = a ++ ">"%char :: b -> exists z, a ++ [">"%char] = p1 ++ ">"%char :: z.
Proof.
  revert a. induction p1 as [|c p1 IH]; intros a N E.
  - destruct a as [|e a]; [exists []; reflexivity|]. injection E as <- _. exists (a ++ [">"%char]). reflexivity.
  - destruct a as [|e a]; [injection E as -> _; destruct N; left; reflexivity|]. injection E as -> E. destruct (IH a) as [z Z]; [intros I; apply N; right; exact I|exact E|]. exists z. cbn [app]. rewrite Z. reflexivity.
Qed.
Lemma settled_none c a s : settled (c :: a) -> tag_at (c :: a ++ s) = None.
Proof.
  intros [K H]. destruct (tag_at _) as [[[t v] n]|] eqn:T; [|reflexivity]. exfalso. destruct (H [] a) as [I|(d & z & -> & D)].
  - apply tag_key in T as (i & z & E & _). injection E as -> _. reflexivity.
  - apply in_split in I as (a1 & a2 & ->). apply tag_key in T as (i & z & E & N & Hk). injection E as -> E. rewrite <- app_assoc in E. cbn [app] in E. symmetry in E. destruct (first_within _ _ _ _ N E) as [y Y].
    apply (K [] i (y ++ a2)); [|exact N|exact Hk]. cbn [app]. f_equal. change (">"%char :: a2) with ([">"%char] ++ a2). rewrite app_assoc, Y, <- app_assoc. reflexivity.
  - unfold tag_at in T. destruct (_ && _); [|discriminate]. cbn [app span] in T. rewrite (not_name d D) in T. discriminate.
Qed.
Lemma settled_tail c a : settled (c :: a) -> settled a.
Proof. intros [K H]. split; [intros x i z ->; apply (K (c :: x) i z); reflexivity|]. intros x y ->. apply (H (c :: x) y). reflexivity. Qed.
Lemma find_first a t l1 v x l2 s : settled a -> good_tag t l1 v x l2 -> find_tag (a ++ start_tag t l1 x l2 ++ s) = Some (length a, (t, v, length (start_tag t l1 x l2))).
Proof.
  intros S G. induction a as [|c a IH].
  - pose proof (tag_found t l1 v x l2 s G) as E. cbn [app length]. destruct (start_tag t l1 x l2 ++ s) as [|c r] eqn:Q; [discriminate|]. cbn [find_tag]. rewrite E. reflexivity.
  - cbn [app find_tag length]. rewrite settled_none by exact S. rewrite IH by (apply (settled_tail c), S). reflexivity.
Qed.

(** ** The end tag *)
Lemma same_spec t s : same_name t s = true <-> exists x r, s = x ++ r /\ lower x = lower t.
Proof.
  unfold same_name. rewrite seq_eq. split.
  - intros E. exists (firstn (length t) s), (skipn (length t) s). split; [symmetry; apply firstn_skipn|exact E].
  - intros (x & r & -> & E). assert (L : length x = length t) by (apply (f_equal (@length ascii)) in E; unfold lower in E; rewrite !map_length in E; exact E).
    rewrite firstn_exact by congruence. exact E.
Qed.
Lemma lower_length x t : lower x = lower t -> length x = length t.
Proof. intros E. apply (f_equal (@length ascii)) in E. unfold lower in E. rewrite !map_length in E. exact E. Qed.
Lemma ends_spec c : ends_name c = true <-> stops c.
Proof. unfold ends_name, stops. rewrite orb_true_iff, ceq_eq. reflexivity. Qed.
Lemma end_spec t s : end_at t s = true <-> closes t s.
Proof.
  unfold end_at, closes. rewrite !andb_true_iff. split.
  - intros [[S N] E]. apply starts_spec in S as [r ->]. change (skipn 2 (B "</" ++ r)) with r in N. apply same_spec in N as (x & r2 & -> & L).
    change (at_ (B "</" ++ x ++ r2) (2 + length t)) with (at_ (x ++ r2) (length t)) in E. rewrite <- (lower_length x t L) in E. unfold at_ in E. rewrite app_nth2, Nat.sub_diag in E by lia.
    apply ends_spec in E. destruct r2 as [|c r2]; [destruct E as [E|E]; discriminate|]. exists x, c, r2. auto.
  - intros (x & c & r & -> & L & E). split; [split|].
    + apply starts_spec. eauto.
    + change (skipn 2 (B "</" ++ x ++ c :: r)) with (x ++ c :: r). apply same_spec. eauto.
    + change (at_ (B "</" ++ x ++ c :: r) (2 + length t)) with (at_ (x ++ c :: r) (length t)). rewrite <- (lower_length x t L). unfold at_. rewrite app_nth2, Nat.sub_diag by lia. apply ends_spec, E.
Qed.
Lemma lower_clean d c : (forall e, tolower e = tolower d -> e = d) -> ~ name_byte d -> forall x t, Forall name_byte t -> lower x = lower t -> c = d -> ~ In c x.
Proof.
  intros U N x t F L -> I. assert (I2 : In (tolower d) (lower t)) by (rewrite <- L; apply in_map, I). apply in_map_iff in I2 as (e & E & I2). rewrite (U e E) in I2.
  exact (N (proj1 (Forall_forall _ _) F d I2)).
Qed.
Lemma only_lower d : forallb (fun e => implb (ceq (tolower e) (tolower d)) (ceq e d)) all_bytes = true -> forall e, tolower e = tolower d -> e = d.
Proof.
  intros A e E. assert (H := byte_forall (fun e => implb (ceq (tolower e) (tolower d)) (ceq e d)) A e). cbv beta in H. rewrite E, ceq_refl in H. cbn in H. apply ceq_eq, H.
Qed.
Lemma not_name_byte c : name_char c = false -> ~ name_byte c.
Proof. intros E H. apply name_spec in H. congruence. Qed.
Lemma clean x t : Forall name_byte t -> lower x = lower t -> ~ In "<"%char x /\ ~ In ">"%char x /\ ~ In "/"%char x /\ ~ In "!"%char x.
Proof.
  intros F L. repeat split.
  - eapply (lower_clean "<"%char "<"%char); [apply only_lower; vm_compute; reflexivity|apply not_name_byte; reflexivity|exact F|exact L|reflexivity].
  - eapply (lower_clean ">"%char ">"%char); [apply only_lower; vm_compute; reflexivity|apply not_name_byte; reflexivity|exact F|exact L|reflexivity].
  - eapply (lower_clean "/"%char "/"%char); [apply only_lower; vm_compute; reflexivity|apply not_name_byte; reflexivity|exact F|exact L|reflexivity].
  - eapply (lower_clean "!"%char "!"%char); [apply only_lower; vm_compute; reflexivity|apply not_name_byte; reflexivity|exact F|exact L|reflexivity].
Qed.
Lemma start_spec t s : name t -> (start_at t s = true <-> opens t s).
Proof.
  intros [F Lt]. unfold start_at, opens. rewrite !andb_true_iff. split.
  - intros [[[[S _] _] N] E]. apply starts_spec in S as [r ->]. change (skipn 1 (B "<" ++ r)) with r in N. apply same_spec in N as (x & r2 & -> & L).
    change (at_ (B "<" ++ x ++ r2) (1 + length t)) with (at_ (x ++ r2) (length t)) in E. rewrite <- (lower_length x t L) in E. unfold at_ in E. rewrite app_nth2, Nat.sub_diag in E by lia.
    apply ends_spec in E. destruct r2 as [|c r2]; [destruct E as [E|E]; discriminate|]. exists x, c, r2. auto.
  - intros (x & c & r & -> & L & E). destruct (clean x t F L) as (_ & _ & C1 & C2). pose proof (lower_length x t L) as Lx. destruct x as [|d x]; [cbn in Lx; lia|].
    repeat split.
    + change (at_ (B "<" ++ (d :: x) ++ c :: r) 1) with d. rewrite (proj2 (ceq_neq d "/"%char)) by (intros ->; apply C1; left; reflexivity). reflexivity.
    + change (at_ (B "<" ++ (d :: x) ++ c :: r) 1) with d. rewrite (proj2 (ceq_neq d "!"%char)) by (intros ->; apply C2; left; reflexivity). reflexivity.
    + change (skipn 1 (B "<" ++ (d :: x) ++ c :: r)) with ((d :: x) ++ c :: r). apply same_spec. eauto.
    + change (at_ (B "<" ++ (d :: x) ++ c :: r) (1 + length t)) with (at_ ((d :: x) ++ c :: r) (length t)). rewrite <- Lx. unfold at_. rewrite app_nth2, Nat.sub_diag by lia. apply ends_spec, E.
Qed.
Lemma stops_lt c : stops c -> c <> "<"%char.
Proof. intros [->|H] E; [discriminate|subst; discriminate]. Qed.
Lemma opens_within t c s e : name t -> opens t ((c :: s) ++ "<"%char :: e) -> opens t (c :: s).
Proof.
  intros [F _] (x & d & r & E & L & D). destruct (clean x t F L) as (C & _). change (B "<" ++ x ++ d :: r) with ("<"%char :: x ++ d :: r) in E. cbn [app] in E. injection E as -> E.
  assert (N : ~ In "<"%char (x ++ [d])) by (rewrite in_app_iff; intros [I|[I|[]]]; [contradiction|exact (stops_lt d D I)]).
  assert (E' : s ++ "<"%char :: e = (x ++ [d]) ++ r) by (rewrite <- app_assoc; exact E). destruct (prefix_within _ _ N _ _ _ E') as [r' ->]. exists x, d, r'. rewrite <- app_assoc. auto.
Qed.
Lemma closes_within t c s e : name t -> closes t ((c :: s) ++ "<"%char :: e) -> closes t (c :: s).
Proof.
  intros [F _] (x & d & r & E & L & D). destruct (clean x t F L) as (C & _). change (B "</" ++ x ++ d :: r) with ("<"%char :: "/"%char :: x ++ d :: r) in E. cbn [app] in E. injection E as -> E.
  assert (N : ~ In "<"%char ("/"%char :: x ++ [d])) by (intros [I|I]; [discriminate|revert I; rewrite in_app_iff; intros [I|[I|[]]]; [contradiction|exact (stops_lt d D I)]]).
  assert (E' : s ++ "<"%char :: e = ("/"%char :: x ++ [d]) ++ r) by (cbn [app]; rewrite <- app_assoc; exact E). destruct (prefix_within _ _ N _ _ _ E') as [r' ->]. exists x, d, r'.
  cbn [app]. rewrite <- app_assoc. auto.
Qed.
Lemma opens_more t s e : opens t s -> opens t (s ++ e).
Proof. intros (x & c & r & -> & L & C). exists x, c, (r ++ e). rewrite <- !app_assoc. cbn [app]. auto. Qed.
Lemma closes_more t s e : closes t s -> closes t (s ++ e).
Proof. intros (x & c & r & -> & L & C). exists x, c, (r ++ e). rewrite <- !app_assoc. cbn [app]. auto. Qed.
Lemma opens_closes t s : name t -> opens t s -> ~ closes t s.
Proof.
  intros [F Lt] (x & c & r & -> & L & C) (x' & c' & r' & E & _). destruct (clean x t F L) as (_ & _ & C1 & _). pose proof (lower_length x t L) as Lx. destruct x as [|d x]; [cbn in Lx; lia|].
  injection E as -> _. apply C1. left. reflexivity.
Qed.
Lemma end_front t close : end_tag t close -> exists e, close = "<"%char :: e.
Proof. intros (x & z & -> & _). eexists. reflexivity. Qed.
Lemma bool_false b : ~ b = true -> b = false.
Proof. destruct b; congruence. Qed.
Lemma nested_close t n c close s : name t -> end_tag t close -> Nested t n c -> close_pos t (c ++ close ++ s) (S n) = Some (length c + length close).
Proof.
  intros Nt E H. destruct (end_front t close E) as [e Ee]. assert (Hd : close ++ s = "<"%char :: e ++ s) by (rewrite Ee; reflexivity).
  induction H as [|n c r O H IH|n c r O H IH|n c r NO NC H IH].
  - cbn [app length]. destruct E as (x & z & -> & L & N1 & N2 & Z). destruct (clean x t (proj1 Nt) L) as (_ & C & _).
    assert (K : end_at t ((B "</" ++ x ++ z ++ B ">") ++ s) = true).
    { apply end_spec. rewrite <- !app_assoc. destruct Z as [->|(d & z' & -> & D)]; [exists x, ">"%char, s|exists x, d, (z' ++ B ">" ++ s)]; (split; [cbn; reflexivity|split; [exact L|]]); [left; reflexivity|right; exact D]. }
    destruct ((B "</" ++ x ++ z ++ B ">") ++ s) as [|h r] eqn:Q; [discriminate|]. rewrite <- Q in *. clear Hd.
    assert (St : strchr ">"%char ((B "</" ++ x ++ z ++ B ">") ++ s) = Some (length (B "</" ++ x ++ z))).
    { replace ((B "</" ++ x ++ z ++ B ">") ++ s) with ((B "</" ++ x ++ z) ++ ">"%char :: s) by (rewrite <- !app_assoc; reflexivity). apply strchr_at. rewrite !in_app_iff. intros [I|[I|I]]; [revert I; cbn; intuition discriminate|contradiction|contradiction]. }
    rewrite Q at 1. cbn [close_pos]. rewrite <- Q. rewrite K, St. cbn [option_map]. f_equal. rewrite !app_length. cbn. lia.
  - rewrite Hd in *. cbn [app close_pos length]. change (c :: r ++ "<"%char :: e ++ s) with ((c :: r) ++ "<"%char :: e ++ s).
    rewrite (bool_false (end_at t _)) by (intros K; apply end_spec, closes_within in K; [exact (opens_closes t _ Nt O K)|exact Nt]).
    rewrite (proj2 (start_spec t _ Nt) (opens_more _ _ _ O)). rewrite IH. reflexivity.
  - rewrite Hd in *. cbn [app close_pos length]. change (c :: r ++ "<"%char :: e ++ s) with ((c :: r) ++ "<"%char :: e ++ s).
    rewrite (proj2 (end_spec t _) (closes_more _ _ _ O)). rewrite IH. reflexivity.
  - rewrite Hd in *. cbn [app close_pos length]. change (c :: r ++ "<"%char :: e ++ s) with ((c :: r) ++ "<"%char :: e ++ s).
    rewrite (bool_false (end_at t _)) by (intros K; apply end_spec, closes_within in K; [exact (NC K)|exact Nt]).
    rewrite (bool_false (start_at t _)) by (intros K; apply (start_spec t _ Nt), opens_within in K; [exact (NO K)|exact Nt]). rewrite IH. reflexivity.
Qed.
Lemma close_back t c close : name t -> end_tag t close -> before_last (c ++ close) = length c.
Proof.
  intros Nt (x & z & -> & L & N1 & N2 & Z). destruct (clean x t (proj1 Nt) L) as (C & _). unfold before_last.
  replace (c ++ B "</" ++ x ++ z ++ B ">") with ((c ++ ["<"%char]) ++ ("/"%char :: x ++ z ++ [">"%char])) by (rewrite <- !app_assoc; reflexivity). rewrite rev_app_distr.
  assert (R : rev (c ++ ["<"%char]) = "<"%char :: rev c) by (rewrite rev_app_distr; reflexivity). rewrite R. rewrite span_word.
  - cbn [snd length]. rewrite rev_length. lia.
  - apply Forall_rev. apply Forall_forall. intros d I. rewrite (proj2 (ceq_neq d "<"%char)); [reflexivity|]. intros ->. destruct I as [I|I]; [discriminate|]. rewrite !in_app_iff in I. destruct I as [I|[I|[I|[]]]]; [contradiction|contradiction|discriminate].
  - right. exists "<"%char, (rev c). auto.
Qed.

(** ** The start tag without the attribute *)
Lemma upto_word w s : Forall (fun c => isspace c = false) w -> upto_markdown (w ++ s) = (w ++ fst (upto_markdown s), snd (upto_markdown s)).
Proof.
  induction 1 as [|c w C F IH]; [cbn [app]; destruct (upto_markdown s); reflexivity|]. cbn [app upto_markdown]. rewrite C. cbn [andb]. rewrite IH. reflexivity.
Qed.
Lemma upto_flat l y : Forall other l -> y = [] \/ (exists z, y = SP :: key ++ z) -> upto_markdown (flat l ++ y) = (flat l, y).
Proof.
  intros F Y. induction F as [|w l W F IH].
  - destruct Y as [->|[z ->]]; [reflexivity|]. cbn [flat flat_map app upto_markdown]. change (isspace SP) with true. cbn [andb]. rewrite drop_sp.
    assert (D : drop_space (key ++ z) = key ++ z) by (apply drop_space_word; [discriminate|repeat constructor]). rewrite D.
    assert (S : starts M_HtmlMd.key (key ++ z) = true) by (apply starts_spec; exists z; reflexivity). rewrite S. reflexivity.
  - change (flat (w :: l) ++ y) with (SP :: (w ++ flat l) ++ y). rewrite <- app_assoc. destruct (word_space w (proj1 W)) as [Z Sw]. cbn [upto_markdown]. change (isspace SP) with true. cbn [andb]. rewrite drop_sp, (drop_space_word w _ Z Sw).
    rewrite other_starts; [|exact W|destruct Y as [->|[z ->]]; [rewrite app_nil_r; apply flat_shape|right; apply flat_shape2]].
    rewrite upto_word, IH by exact Sw. reflexivity.
Qed.
Lemma copy_chunk fuel w l y g : other w -> Forall other l -> y = [] \/ (exists z, y = SP :: key ++ z) -> length g + length (flat (w :: l)) < 2048 ->
  copy_attrs (S fuel) (flat (w :: l) ++ y) g = copy_attrs fuel y (g ++ flat (w :: l)).
Proof.
  intros W F Y L. destruct (word_space w (proj1 W)) as [Z Sw]. change (flat (w :: l) ++ y) with (SP :: (w ++ flat l) ++ y). rewrite <- app_assoc. cbn [copy_attrs]. rewrite drop_sp, (drop_space_word w _ Z Sw).
  assert (St : starts M_HtmlMd.key (w ++ flat l ++ y) = false) by (apply (other_starts w (flat l ++ y) W); destruct Y as [->|[z ->]]; [rewrite app_nil_r; apply flat_shape|right; apply flat_shape2]).
  destruct w as [|c w]; [congruence|]. inversion Sw as [|? ? _ Sw']; subst. cbn [app] in St |- *. rewrite St. rewrite upto_word, upto_flat by assumption. cbn [fst snd].
  change (flat ((c :: w) :: l)) with (SP :: (c :: w) ++ flat l) in *. cbn [length app] in L |- *. rewrite (proj2 (Nat.ltb_lt _ _)) by lia. reflexivity.
Qed.
Lemma copy_all l2 fuel g : Forall other l2 -> length (flat l2) < fuel -> length g + length (flat l2) < 2048 -> copy_attrs fuel (flat l2) g = g ++ flat l2.
Proof.
  intros F Lf L. destruct fuel as [|fuel]; [lia|]. destruct l2 as [|w l]; [cbn; rewrite app_nil_r; reflexivity|]. inversion F; subst.
  rewrite <- (app_nil_r (flat (w :: l))) at 1. rewrite copy_chunk by auto. destruct fuel; reflexivity.
Qed.
Lemma skip_quote q v r : ~ In q v -> ~ In BS v -> skip_quoted q (v ++ q :: r) = r.
Proof.
  intros Nq Nb. induction v as [|c v IH]; [cbn [app skip_quoted]; rewrite ceq_refl; reflexivity|]. cbn [app skip_quoted].
  rewrite (proj2 (ceq_neq c q)) by (intros ->; apply Nq; left; reflexivity). rewrite (proj2 (ceq_neq c BS)) by (intros ->; apply Nb; left; reflexivity).
  apply IH; intros I; [apply Nq|apply Nb]; right; exact I.
Qed.
Lemma copy_markdown fuel v x l2 g : Value v x -> Forall other l2 -> length (flat ((key ++ x) :: l2)) < S fuel -> length g + length (flat l2) < 2048 ->
  copy_attrs (S fuel) (flat ((key ++ x) :: l2)) g = g ++ flat l2.
Proof.
  intros (W & Lv & V) F Lf L. destruct (word_space _ W) as [Z Sw]. change (flat ((key ++ x) :: l2)) with (SP :: (key ++ x) ++ flat l2) in *. cbn [copy_attrs]. rewrite drop_sp, (drop_space_word (key ++ x) _ Z Sw). rewrite <- app_assoc.
  cbn [length] in Lf. rewrite !app_length in Lf. change (length key) with 9 in Lf.
  change (key ++ x ++ flat l2) with ("m"%char :: B "arkdown=" ++ x ++ flat l2). cbv iota beta.
  assert (S : starts M_HtmlMd.key ("m"%char :: B "arkdown=" ++ x ++ flat l2) = true) by (apply starts_spec; exists (x ++ flat l2); reflexivity). rewrite S.
  change (skipn 9 ("m"%char :: B "arkdown=" ++ x ++ flat l2)) with (x ++ flat l2). cbv zeta. pose proof (word_app x W) as Fx.
  assert (Fx' : Forall (fun c => isspace c = false) x) by (revert Fx; apply Forall_impl; intros c [C _]; exact C).
  destruct V as [(-> & N1 & N2)|(q & Q & -> & Nq & Nb)].
  - destruct (v ++ flat l2) as [|q y] eqn:E.
    + apply app_eq_nil in E as [_ ->]. rewrite app_nil_r. reflexivity.
    + assert (Qf : ceq q DQ || ceq q SQ = false).
      { destruct v as [|c v]; cbn [app] in E; [destruct (flat_shape l2) as [H|[r H]]; rewrite H in E; [discriminate|injection E as <- _; reflexivity]|]. injection E as <- _. cbn in N1, N2. rewrite (proj2 (ceq_neq c DQ)), (proj2 (ceq_neq c SQ)) by assumption. reflexivity. }
      rewrite Qf, <- E. rewrite span_nonspace by (try exact Fx'; apply flat_shape). cbn [snd]. apply copy_all; [exact F|lia|exact L].
  - assert (Qt : ceq q DQ || ceq q SQ = true) by (destruct Q as [-> | ->]; reflexivity). cbn [app]. rewrite Qt. rewrite <- app_assoc. cbn [app]. rewrite skip_quote by assumption. apply copy_all; [exact F|lia|exact L].
Qed.
Lemma opening_good t l1 v x l2 : good_tag t l1 v x l2 -> length (tag t (l1 ++ l2)) < 2048 -> opening t (start_tag t l1 x l2) = Some (tag t (l1 ++ l2)).
Proof.
  intros (Nt & F1 & V & F2) L. rewrite tag_length, flat_app, app_length in L. unfold opening, start_tag. set (l := l1 ++ (key ++ x) :: l2).
  assert (I : removelast (skipn (1 + length t) (tag t l)) = flat l).
  { replace (tag t l) with ((B "<" ++ t) ++ flat l ++ [">"%char]) by (unfold tag; rewrite <- !app_assoc; reflexivity). rewrite skipn_exact by (rewrite app_length; reflexivity). apply removelast_last. }
  rewrite I. cbv zeta.
  assert (C : match strchr SP (flat l) with Some k => copy_attrs (S (length (flat l))) (skipn k (flat l)) (B "<" ++ t) | None => B "<" ++ t end = B "<" ++ t ++ flat (l1 ++ l2)).
  { assert (K : strchr SP (flat l) = Some 0) by (unfold l; destruct l1; reflexivity). rewrite K. cbn [skipn]. unfold l. rewrite flat_app. destruct l1 as [|w l1].
    - change (flat [] ++ flat ((key ++ x) :: l2)) with (flat ((key ++ x) :: l2)). change (flat ([] ++ l2)) with (flat l2). rewrite (copy_markdown _ v); [rewrite <- app_assoc; reflexivity|exact V|exact F2|cbn; lia|rewrite app_length; cbn in *; lia].
    - inversion F1; subst. change (flat ((key ++ x) :: l2)) with (SP :: (key ++ x) ++ flat l2). rewrite <- (app_assoc key). rewrite copy_chunk; [|assumption|assumption|right; eexists; reflexivity|rewrite app_length; cbn [length] in *; change (length (B "<")) with 1; lia].
      assert (N : length (flat (w :: l1) ++ SP :: key ++ x ++ flat l2) = S (length (flat (w :: l1)) + length ((key ++ x) ++ flat l2))) by (rewrite app_length; cbn [length]; rewrite <- app_assoc; lia).
      rewrite N. rewrite (app_assoc key). change (SP :: (key ++ x) ++ flat l2) with (flat ((key ++ x) :: l2)). rewrite (copy_markdown _ v); [|exact V|exact F2| |].
      + rewrite flat_app, <- !app_assoc. reflexivity.
      + change (flat ((key ++ x) :: l2)) with (SP :: (key ++ x) ++ flat l2). cbn [length]. change (length (flat (w :: l1))) with (S (length (w ++ flat l1))). lia.
      + rewrite !app_length. change (length (B "<")) with 1. lia. }
  rewrite C. rewrite (proj2 (Nat.ltb_lt _ _)); [|rewrite !app_length, flat_app, app_length; change (length (B "<")) with 1; lia].
  unfold tag. rewrite <- !app_assoc. reflexivity.
Qed.

(** ** The text *)
Lemma inline_spec g html : Unwrapped g html -> inline_html g = html.
Proof.
  intros U. unfold inline_html. destruct U as [h|h N].
  - rewrite (proj2 (Nat.ltb_lt _ _)) by (rewrite !app_length; cbn; lia).
    assert (S : starts (B "<p>") (B "<p>" ++ h ++ B "</p>" ++ [NL]) = true) by (apply starts_spec; eauto). rewrite S.
    assert (R : starts (rev (B "</p>" ++ [NL])) (rev (B "<p>" ++ h ++ B "</p>" ++ [NL])) = true) by (apply starts_spec; rewrite app_assoc, (rev_app_distr (B "<p>" ++ h)); eauto). rewrite R. cbn [andb].
    change (skipn 3 (B "<p>" ++ h ++ B "</p>" ++ [NL])) with (h ++ B "</p>" ++ [NL]). apply firstn_exact. rewrite !app_length. cbn. lia.
  - destruct ((7 <? length h) && _ && _) eqn:E; [|reflexivity]. exfalso. rewrite !andb_true_iff in E. destruct E as [[L S] R]. apply Nat.ltb_lt in L. apply starts_spec in S as [r S]. apply starts_spec in R as [y R].
    assert (E : h = rev y ++ B "</p>" ++ [NL]) by (rewrite <- (rev_involutive h), R, rev_app_distr, rev_involutive; reflexivity).
    assert (Ly : 3 <= length (rev y)) by (rewrite E, app_length in L; cbn in L; lia). rewrite E in S. remember (rev y) as z.
    destruct z as [|c1 [|c2 [|c3 z]]]; cbn [length] in Ly; try lia. cbn [app] in S. injection S as -> -> -> _. exact (N z E).
Qed.
Lemma put_fits s cap o : length o + length s < cap -> put s (St cap o) = St cap (o ++ s).
Proof. intros L. unfold put, room. cbn [s_cap s_out]. rewrite (proj2 (Nat.ltb_lt _ _)) by lia. reflexivity. Qed.
Lemma block_spec v : is_block v = true <-> block v.
Proof. unfold is_block, block. rewrite orb_true_iff, !seq_eq. reflexivity. Qed.
Lemma span_spec v : is_span v = true <-> inline v.
Proof. unfold is_span, inline. apply seq_eq. Qed.
Lemma go_page render s h : Page render s h -> forall fuel cap o, length s < fuel -> length o + length h < cap -> go render fuel s (St cap o) = Some (St cap (o ++ h)).
Proof.
  induction 1 as [s N|a t l1 v x l2 c close s h A G NB NI Ne Cl P IH|a t l1 v x l2 c c' html close s h A G Lt Ne Cl Z Pc IHc Lc Co P IH]; intros fuel cap o Lf L; (destruct fuel as [|fuel]; [lia|]).
  - destruct s as [|ch s]; [cbn; rewrite app_nil_r; reflexivity|]. cbn [go]. rewrite find_none by exact N. rewrite put_fits by exact L. reflexivity.
  - set (g := start_tag t l1 x l2) in *. rewrite !app_length in Lf, L.
    assert (Lg : 0 < length g) by (unfold g, start_tag; rewrite tag_length; lia).
    destruct (a ++ g ++ c ++ close ++ s) as [|q r] eqn:Q; [apply (f_equal (@length ascii)) in Q; rewrite !app_length in Q; cbn in Q; lia|]. cbn [go]. rewrite <- Q. clear Q.
    unfold g at 1. rewrite (find_first a t l1 v x l2) by assumption. fold g. cbv zeta.
    rewrite firstn_exact by reflexivity. rewrite skipn_exact by reflexivity. rewrite (skipn_exact g) by reflexivity. rewrite (firstn_exact g) by reflexivity.
    rewrite nested_close by (try assumption; apply G).
    assert (V : is_block v || is_span v = false) by (apply orb_false_iff; split; apply bool_false; [rewrite block_spec|rewrite span_spec]; assumption). rewrite V. cbn [andb].
    assert (R : skipn (length c + length close) (c ++ close ++ s) = s) by (rewrite app_assoc; apply skipn_exact; rewrite app_length; reflexivity). rewrite R.
    assert (W : firstn (length g + (length c + length close)) (g ++ c ++ close ++ s) = g ++ c ++ close) by (replace (g ++ c ++ close ++ s) with ((g ++ c ++ close) ++ s) by (rewrite <- !app_assoc; reflexivity); apply firstn_exact; rewrite !app_length; reflexivity). rewrite W.
    rewrite put_fits by lia. rewrite put_fits by (rewrite !app_length; lia). rewrite IH; [rewrite <- !app_assoc; reflexivity|lia|rewrite !app_length; lia].
  - set (g := start_tag t l1 x l2) in *. rewrite !app_length in Lf, L. change (length ([NL] ++ h)) with (S (length h)) in L.
    assert (Lg : 0 < length g) by (unfold g, start_tag; rewrite tag_length; lia).
    destruct (a ++ g ++ c ++ close ++ s) as [|q r] eqn:Q; [apply (f_equal (@length ascii)) in Q; rewrite !app_length in Q; cbn in Q; lia|]. cbn [go]. rewrite <- Q. clear Q.
    unfold g at 1. rewrite (find_first a t l1 v x l2) by assumption. fold g. cbv zeta.
    rewrite firstn_exact by reflexivity. rewrite skipn_exact by reflexivity. rewrite (skipn_exact g) by reflexivity. rewrite (firstn_exact g) by reflexivity.
    rewrite nested_close by (try assumption; apply G).
    assert (V : is_block v || is_span v = true) by (apply orb_true_iff; destruct Co as [[Bv _]|[Iv _]]; [left; apply block_spec, Bv|right; apply span_spec, Iv]). rewrite V.
    assert (R : skipn (length c + length close) (c ++ close ++ s) = s) by (rewrite app_assoc; apply skipn_exact; rewrite app_length; reflexivity). rewrite R.
    assert (F : firstn (length c + length close) (c ++ close ++ s) = c ++ close) by (rewrite app_assoc; apply firstn_exact; rewrite app_length; reflexivity). rewrite F.
    rewrite (close_back t c close) by (try assumption; apply G).
    assert (Lz : 0 < length c) by (destruct c; [congruence|cbn; lia]). rewrite (proj2 (Nat.ltb_lt _ _) Lz). cbn [andb].
    rewrite (firstn_exact c) by reflexivity. rewrite IHc by (cbn [length]; lia). cbn [app]. unfold room at 1. cbn [s_cap s_out]. rewrite (proj2 (Nat.ltb_lt _ _)) by lia.
    rewrite (skipn_exact c) by reflexivity. replace (length c + length close - length c) with (length close) by lia. rewrite (firstn_exact close) by reflexivity.
    unfold g. rewrite (opening_good t l1 v) by assumption.
    assert (H : (if is_span v then inline_html (render c') else render c') = html).
    { destruct Co as [[Bv ->]|[Iv U]]; [rewrite (bool_false (is_span v)); [reflexivity|]; intros K; apply span_spec in K; unfold inline in K; subst v; destruct Bv; discriminate|]. rewrite (proj2 (span_spec v) Iv). apply inline_spec, U. }
    rewrite H. rewrite put_fits by lia. rewrite put_fits by (rewrite !app_length; lia). rewrite put_fits by (rewrite !app_length; lia). rewrite put_fits by (rewrite !app_length; lia).
    unfold newline, room. cbn [s_cap s_out]. rewrite (proj2 (Nat.ltb_lt _ _)) by (rewrite !app_length; lia).
    rewrite IH; [rewrite <- !app_assoc; reflexivity|lia|rewrite !app_length; cbn [length]; lia].
Qed.
Lemma process_page render s h : Page render s h -> length h < 2 * length s -> process render s = Out h.
Proof.
  intros P L. unfold process. rewrite (go_page render s h P) by (cbn [length]; lia). cbn [app]. unfold room. cbn [s_cap s_out]. rewrite (proj2 (Nat.ltb_lt _ _)) by lia. reflexivity.
Qed.
Lemma tag_differs t l1 v x l2 u w : good_tag t l1 v x l2 -> tag t (l1 ++ l2) ++ u <> start_tag t l1 x l2 ++ w.
Proof.
  intros (_ & _ & _ & F2) Q. unfold start_tag, tag in Q. change (flat_map (fun w : list ascii => SP :: w)) with flat in Q. rewrite !flat_app in Q. rewrite <- !app_assoc in Q. do 3 apply app_inv_head in Q.
  change (flat ((key ++ x) :: l2)) with (SP :: (key ++ x) ++ flat l2) in Q. destruct F2 as [|y l2 [Wy Ny] F2]; [discriminate|].
  change (flat (y :: l2)) with (SP :: y ++ flat l2) in Q. cbn [app] in Q. injection Q as Q. rewrite <- !app_assoc in Q. apply Ny.
  destruct (flat_shape l2) as [E|[r E]]; rewrite E in Q; cbn [app] in Q.
  - change (B ">" ++ u) with (">"%char :: u) in Q. apply (prefix_within key ">"%char) in Q; [exact Q|]. vm_compute. intuition discriminate.
  - apply (prefix_within key SP) in Q; [exact Q|]. vm_compute. intuition discriminate.
Qed.
