(** More lemmas about merged lists. *)
From Verif Require Import Base BaseL S_Merge M_Merge L_Merge.

Lemma shallow_kids k s cs r : shallow (Node k s cs :: r) -> shallow cs.
Proof. intros C l pre A mid y post m n L. apply (C l). apply (level_below _ (Node k s cs)); [now left|exact L]. Qed.
Lemma proper_kids k s cs r : proper (Node k s cs :: r) -> proper cs.
Proof. intros C l t u L. apply (C l). apply (level_below _ (Node k s cs)); [now left|exact L]. Qed.
Lemma grab_sub k r t : In t (snd (grab k r)) -> In t r.
Proof.
  destruct k as [n|]; cbn [grab snd]; [|auto]. destruct (absorb_shape n r) as (run & rest & -> & _ & _ & ->). cbn [snd]. intro I. apply in_app_or in I as [J|J]; apply in_or_app; [left; now apply filter_In in J|now right].
Qed.
Lemma proper_rest k s cs r : proper (Node k s cs :: r) -> proper (snd (grab k r)).
Proof.
  intros C l t u L I Lt Iu. remember (snd (grab k r)) as f0 eqn:Ef in L. destruct L as [f|f v l J L]; subst f.
  - apply (C (Node k s cs :: r) t u); [apply level_here|right; apply (grab_sub k); exact I|exact Lt|exact Iu].
  - apply (C l t u); [|exact I|exact Lt|exact Iu]. apply (level_below _ v); [right; apply (grab_sub k); exact J|exact L].
Qed.
Lemma shallow_rest k s cs r : shallow (Node k s cs :: r) -> shallow (snd (grab k r)).
Proof.
  intros C. destruct k as [n|].
  - cbn [grab snd]. destruct (absorb_shape n r) as (run & rest & -> & F & H & Q). rewrite Q. cbn [snd]. intros l pre A mid y post m m' L E Fr Fl TA Ty N. remember (filter (same n) run ++ rest) as f0 eqn:Ef in L. destruct L as [f|f t l I L]; subst f.
    + assert (Fs : Forall listy (filter (same n) run)) by (apply Forall_forall; intros t I; apply filter_In in I as (I & _); rewrite Forall_forall in F; exact (F t I)).
      destruct (run_place _ rest pre A _ Fs H E Fr) as [-> | (p & P1 & P2 & P3 & P4)]; [inversion Fl; assumption| |].
      * assert (K : forall t, In t (A :: mid ++ [y]) -> In t (filter (same n) run)). { clear - E Fl H Fs. cbn [app] in E. replace (A :: mid ++ y :: post) with ((A :: mid ++ [y]) ++ post) in E by (cbn; rewrite <- app_assoc; reflexivity). revert E. generalize (A :: mid ++ [y]) (filter (same n) run) Fl Fs. clear - H. intros u. induction u as [|t u IH]; intros S Fl Fs E v I; [destruct I|]. inversion Fl as [|? ? L Fl']; subst. destruct S as [|t' S]; cbn in E; [destruct (L (H _ _ E))|]. injection E as -> E. inversion Fs; subst. destruct I as [<-|I]; [now left|right]. exact (IH S Fl' ltac:(assumption) E v I). }
        assert (KA := K A (or_introl eq_refl)). assert (Ky := K y ltac:(right; apply in_or_app; right; now left)). apply filter_In in KA as (_ & KA), Ky as (_ & Ky). unfold same in KA, Ky. rewrite TA in KA. rewrite Ty in Ky. apply Nat.eqb_eq in KA, Ky. congruence.
      * apply (C (Node (KList n) s cs :: run ++ rest) (Node (KList n) s cs :: run ++ p) A mid y post m m'); [apply level_here|cbn; rewrite P2, <- app_assoc; reflexivity| |exact Fl|exact TA|exact Ty|exact N]. apply (front_tail [] p (Node (KList n) s cs :: run)); [exact P4|exact P3].
    + apply (C l pre A mid y post m m'); auto. apply (level_below _ t); [|exact L]. right. apply in_app_or in I as [I|I]; apply in_or_app; [left; now apply filter_In in I|now right].
  - cbn [grab snd]. intros l pre A mid y post m m' L E Fr Fl TA Ty N. destruct L as [f|f t l I L].
    + apply (C (Node KOther s cs :: f) (Node KOther s cs :: pre) A mid y post m m'); auto; [apply level_here|cbn; now rewrite E|]. apply front_cons; [reflexivity|exact Fr].
    + apply (C l pre A mid y post m m'); auto. apply (level_below _ t); [right; exact I|exact L].
Qed.
Lemma settled_flat L : (forall t, In t L -> settled (kids t) /\ forall u, In u (kids t) -> type_of u = None) -> settled (flat_map kids L) /\ forall u, In u (flat_map kids L) -> type_of u = None.
Proof.
  induction L as [|t L IH]; intro H; [split; [apply settled_nil|intros u []]|]. destruct (H t (or_introl eq_refl)) as (H1 & H2). destruct IH as (I1 & I2); [intros v I; apply H; now right|]. cbn [flat_map]. assert (N : forall u, In u (kids t ++ flat_map kids L) -> type_of u = None) by (intros u I; apply in_app_or in I as [I|I]; auto). split; [now apply settled_app|exact N].
Qed.
Lemma step_settled f g : Step f g -> proper f -> shallow f -> settled g.
Proof.
  induction 1 as [|k s cs r cs' r' S1 IH1 S2 IH2]; intros P Sh; [apply settled_nil|]. specialize (IH1 (proper_kids _ _ _ _ P) (shallow_kids _ _ _ _ Sh)). specialize (IH2 (proper_rest _ _ _ _ P) (shallow_rest _ _ _ _ Sh)). apply settled_cons; [|exact IH2|].
  - cbn [kids]. destruct k as [n|]; cbn [grab fst]; [|rewrite app_nil_r; exact IH1]. destruct (absorb_shape n r) as (run & rest & -> & F & H & ->). cbn [fst]. rewrite Forall_forall in F. destruct (settled_flat (filter (fun t => negb (same n t)) run)) as (I1 & I2).
    { intros t I. apply filter_In in I as (I & D). split.
      - pose proof I as I'. apply in_split in I as (mid & post & ->). unfold same in D. destruct (type_of t) as [m|] eqn:T; [|destruct (F t I' T)]. apply negb_true_iff, Nat.eqb_neq in D. apply (Sh (Node (KList n) s cs :: (mid ++ t :: post) ++ rest) [] (Node (KList n) s cs) mid t (post ++ rest) n m); [apply level_here|cbn; now rewrite <- app_assoc|now left| |reflexivity|exact T|congruence]. constructor; [discriminate|]. apply Forall_forall. intros v Iv. apply F. apply in_app_or in Iv as [Iv|[<-|[]]]; apply in_or_app; [now left|right; now left].
      - intros u Iu. apply (P (Node (KList n) s cs :: run ++ rest) t u); [apply level_here|right; apply in_or_app; now left|exact (F t I)|exact Iu]. }
    apply settled_app; [exact IH1|exact I1|]. intros t I. apply in_app_or in I as [I|I]; [|exact (I2 t I)]. destruct (step_types _ _ S1 t I) as (u & Iu & E). rewrite <- E. apply (P (Node (KList n) s cs :: run ++ rest) (Node (KList n) s cs) u); [apply level_here|now left|discriminate|exact Iu].
  - intros u q m m' E T Tu. destruct k as [n|]; [|discriminate T]. cbn in T. injection T as <-. destruct (step_head _ _ u q S2 E) as (u' & p & E' & T'). cbn [grab snd] in E'. destruct (absorb_shape n r) as (run & rest & -> & F & H & Q). rewrite Q in E'. cbn [snd] in E'. destruct (filter (same n) run) as [|v S] eqn:Ef; cbn in E'.
    + rewrite <- T', (H _ _ E') in Tu. discriminate.
    + injection E' as -> _. assert (I : In u' (filter (same n) run)) by (rewrite Ef; now left). apply filter_In in I as (_ & I). unfold same in I. rewrite T', Tu in I. now apply Nat.eqb_eq in I.
Qed.

(** Fixed points *)
Lemma wt_zero f : wt f = 0 -> f = [].
Proof. destruct f as [|[k s cs] f]; [reflexivity|]. rewrite wt_cons. discriminate. Qed.
Lemma absorb_le n r : wt (fst (absorb n r)) + wt (snd (absorb n r)) <= wt r.
Proof. exact (grab_wt (KList n) r). Qed.
Lemma absorb_none n r : wt (fst (absorb n r)) + wt (snd (absorb n r)) = wt r -> absorb n r = ([], r) /\ forall u q m, r = u :: q -> type_of u = Some m -> m = n.
Proof.
  induction r as [|[[m|] s cs] r IH]; [split; [reflexivity|discriminate]| |].
  - cbn [absorb]. pose proof (absorb_le n r) as L. destruct (absorb n r) as [i q]. cbn [fst snd] in *. destruct (n =? m) eqn:E; cbn [fst snd]; rewrite ?wt_app, ?wt_cons; intro H; [|lia]. destruct IH as (I & _); [lia|]. injection I as -> ->. split; [reflexivity|]. intros u q m' [= <- _] [= <-]. symmetry. now apply Nat.eqb_eq.
  - intros _. split; [reflexivity|]. intros u q m [= <- _]. discriminate.
Qed.
Lemma step_wt f g : Step f g -> wt g <= wt f.
Proof. induction 1 as [|k s cs r cs' r' S1 IH1 S2 IH2]; [apply le_n|]. rewrite !wt_cons, wt_app. pose proof (grab_wt k r). lia. Qed.
Lemma step_same f g : Step f g -> g = f -> settled f.
Proof.
  induction 1 as [|k s cs r cs' r' S1 IH1 S2 IH2]; [intros _; apply settled_nil|]. intros [= E1 E2]. pose proof (step_wt _ _ S1) as W1. pose proof (step_wt _ _ S2) as W2. pose proof (f_equal wt E1) as W3. rewrite wt_app in W3. pose proof (f_equal wt E2) as W4. destruct k as [n|]; cbn [grab fst snd] in *.
  - pose proof (absorb_le n r) as W5. destruct (absorb_none n r) as (A & H); [lia|]. rewrite A in *. cbn [fst snd] in *. rewrite app_nil_r in E1. apply settled_cons; [exact (IH1 E1)|exact (IH2 E2)|]. intros u q m m' E [= <-] Tu. symmetry. exact (H u q m' E Tu).
  - rewrite app_nil_r in E1. apply settled_cons; [exact (IH1 E1)|exact (IH2 E2)|]. discriminate.
Qed.
Lemma settled_absorb n r : forall s cs, settled (Node (KList n) s cs :: r) -> absorb n r = ([], r).
Proof.
  induction r as [|[[m|] s' cs'] r IH]; intros s cs H; [reflexivity| |reflexivity]. assert (n = m) by (apply (H _ (level_here _) [] (Node (KList n) s cs) (Node (KList m) s' cs') r n m); reflexivity). subst m. cbn [absorb]. rewrite (IH s' cs') by exact (proj2 (settled_below _ _ _ _ H)). now rewrite Nat.eqb_refl.
Qed.
Lemma settled_step n : forall f, wt f <= n -> settled f -> Step f f.
Proof.
  induction n as [|n IH]; intros [|[k s cs] r] L H; try constructor; rewrite wt_cons in L; [lia|]. destruct (settled_below _ _ _ _ H) as (H1 & H2). assert (G : grab k r = ([], r)) by (destruct k; [exact (settled_absorb _ _ _ _ H)|reflexivity]). pose proof (step_node k s cs r cs r (IH cs ltac:(lia) H1)) as S. rewrite G in S. cbn [fst snd] in S. rewrite app_nil_r in S. apply S. apply IH; [lia|exact H2].
Qed.

(** Something that is no list separates. *)
Lemma absorb_sep n x b : type_of x = None -> forall a, exists i a', absorb n (a ++ x :: b) = (i, a' ++ x :: b) /\ absorb n (a ++ [x]) = (i, a' ++ [x]).
Proof.
  intros X. destruct x as [[?|] sx cx]; [discriminate X|]. induction a as [|[[m|] s cs] a (i & a' & E1 & E2)].
  - exists [], []. split; reflexivity.
  - cbn [app absorb]. rewrite E1, E2. destruct (n =? m); [exists i, (Node (KList m) s cs :: a')|exists (cs ++ i), a']; split; reflexivity.
  - exists [], (Node KOther s cs :: a). split; reflexivity.
Qed.
Lemma step_sep x b g2 : type_of x = None -> Step b g2 -> forall h g1, Step h g1 -> forall a, h = a ++ [x] -> Step (a ++ x :: b) (g1 ++ g2).
Proof.
  intros X S2 h g1 S. induction S as [|k s cs r cs' r' S1 _ S3 IH]; intros [|t a] E; cbn in E; try discriminate; injection E as <- E.
  - subst r. destruct k as [n|]; [discriminate X|]. cbn [grab fst snd] in S3. inversion S3; subst. pose proof (step_node KOther s cs b cs' g2 S1 S2) as S. exact S.
  - subst r. destruct k as [n|].
    + cbn [grab] in *. destruct (absorb_sep n x b X a) as (i & a' & E1 & E2). rewrite E2 in S3, IH. cbn [fst snd] in S3, IH. rewrite E2. cbn [fst]. pose proof (step_node (KList n) s cs (a ++ x :: b) cs' (r' ++ g2) S1) as S. cbn [grab] in S. rewrite E1 in S. cbn [fst snd] in S. apply S. exact (IH a' eq_refl).
    + cbn [grab fst snd] in *. pose proof (step_node KOther s cs (a ++ x :: b) cs' (r' ++ g2) S1) as S. apply S. exact (IH a eq_refl).
Qed.

(** A run *)
Lemma settled_list n f : (forall t, In t f -> type_of t = Some n /\ settled (kids t)) -> settled f.
Proof.
  induction f as [|t f IH]; intro H; [apply settled_nil|]. apply settled_cons; [apply H; now left|apply IH; intros u I; apply H; now right|]. intros u q m m' -> T Tu. destruct (H t (or_introl eq_refl)) as (T1 & _). destruct (H u (or_intror (or_introl eq_refl))) as (T2 & _). congruence.
Qed.
Lemma absorb_run n run : Forall listy run -> absorb n run = (flat_map kids (filter (fun t => negb (same n t)) run), filter (same n) run).
Proof. induction 1 as [|[[m|] s cs] run H F IH]; [reflexivity| |now destruct H]. cbn [absorb filter]. rewrite IH. replace (same n (Node (KList m) s cs)) with (n =? m) by reflexivity. destruct (n =? m); reflexivity. Qed.
Lemma step_run n s cs run : Forall listy run -> settled cs -> (forall t, In t run -> type_of t = Some n -> settled (kids t)) ->
  Step (Node (KList n) s cs :: run) (Node (KList n) s (cs ++ flat_map kids (filter (fun t => negb (same n t)) run)) :: filter (same n) run).
Proof.
  intros F Hc Hr. pose proof (step_node (KList n) s cs run cs (filter (same n) run) (settled_step _ cs (le_n _) Hc)) as S. cbn [grab] in S. rewrite (absorb_run n run F) in S. cbn [fst snd] in S. apply S. apply (settled_step _ _ (le_n _)). apply (settled_list n). intros t I. apply filter_In in I as (I & Q). unfold same in Q. destruct (type_of t) as [m|] eqn:T; [|discriminate Q]. apply Nat.eqb_eq in Q. subst m. split; [reflexivity|exact (Hr t I T)].
Qed.
Lemma says_total n : forall f, wt f <= n -> Says f (said f).
Proof.
  induction n as [|n IH]; intros [|[k s cs] r] L; try constructor; rewrite wt_cons in L; [lia|]. rewrite said_cons. destruct k; cbn [app]; constructor; apply IH; lia.
Qed.
