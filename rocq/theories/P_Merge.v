(** Properties C311-C316: adjacent lists with different markers. *)
From Verif Require Import Base BaseL S_Merge M_Merge L_Merge L_Merge2.
From Coq Require Import Permutation.

Definition par (s : string) : tree := Node KOther (B s) [].
Definition itm (s : string) : tree := Node KOther [] [par s].
Definition lst (n : nat) (cs : list tree) : tree := Node (KList n) [] cs.

(** C311 *)
Theorem C311_nothing_lost : forall f a, Says f a -> exists g b, merge f = Some g /\ Says g b /\ Permutation a b.
Proof.
  intros f a H. destruct (merge_step f) as (g & E & S). exists g, (said g). split; [exact E|]. split; [exact (says_total _ g (le_n _))|]. rewrite (says_said f a H). exact (step_perm f g S).
Qed.
Example C311_case : merge [lst 1 [itm "a"]; lst 2 [itm "b"; itm "c"]; par "d"] = Some [lst 1 [itm "a"; itm "b"; itm "c"]; par "d"] /\ Says [lst 2 [itm "b"]] [[]; B "b"].
Proof. split; [vm_compute; reflexivity|]. exact (says_total 3 [lst 2 [itm "b"]] (le_n 3)). Qed.
Print Assumptions C311_nothing_lost.

(** C312: the order is kept. Not with two lists of one type in front of a third of another: *)
Theorem C312_refuted : forall m n s1 s2 s3 x y z a b c, m <> n -> settled x -> settled y -> Says x a -> Says y b -> Says z c -> b ++ c <> c ++ b ->
  let f := [Node (KList m) s1 x; Node (KList m) s2 y; Node (KList n) s3 z] in
  exists g, merge f = Some g /\ Says f (a ++ b ++ c) /\ Says g (a ++ c ++ b) /\ ~ Says g (a ++ b ++ c).
Proof.
  intros m n s1 s2 s3 x y z a b c N Hx Hy Ha Hb Hc D f. pose proof (step_run m s1 x [Node (KList m) s2 y; Node (KList n) s3 z]) as S. cbn [filter] in S. change (same m (Node (KList m) s2 y)) with (m =? m) in S. change (same m (Node (KList n) s3 z)) with (m =? n) in S. rewrite Nat.eqb_refl, (proj2 (Nat.eqb_neq m n) N) in S. cbn [negb filter flat_map kids app] in S. rewrite app_nil_r in S.
  assert (T : Step f [Node (KList m) s1 (x ++ z); Node (KList m) s2 y]). { apply S; [repeat (constructor; [discriminate|]); constructor|exact Hx|]. intros t [<-|[<-|[]]]; [intros _; exact Hy|cbn; intros [= Q]; congruence]. } eexists. split; [exact (step_merge _ _ T)|]. apply says_said in Ha, Hb, Hc. subst a b c.
  assert (G : said [Node (KList m) s1 (x ++ z); Node (KList m) s2 y] = said x ++ said z ++ said y) by (rewrite !said_cons; cbn [app]; rewrite said_app, <- !app_assoc; cbn; now rewrite app_nil_r).
  split; [|split].
  - replace (said x ++ said y ++ said z) with (said f); [exact (says_total _ f (le_n _))|]. unfold f. rewrite !said_cons. cbn. now rewrite app_nil_r.
  - rewrite <- G. exact (says_total _ _ (le_n _)).
  - intro K. apply says_said in K. rewrite G in K. apply app_inv_head in K. exact (D K).
Qed.
Example C312_refuted_case : merge [lst 1 [itm "a"]; lst 1 [itm "b"]; lst 2 [itm "c"]] = Some [lst 1 [itm "a"; itm "c"]; lst 1 [itm "b"]].
Proof. vm_compute. reflexivity. Qed.
Print Assumptions C312_refuted.
Theorem C312_partial : forall f a, calm f -> Says f a -> exists g, merge f = Some g /\ Says g a.
Proof.
  intros f a C H. destruct (merge_step f) as (g & E & S). exists g. split; [exact E|]. rewrite (says_said f a H), <- (step_order f g S C). exact (says_total _ g (le_n _)).
Qed.
Example C312_case : calm [lst 1 [itm "a"]; lst 2 [itm "b"]].
Proof.
  intros l pre A mid x mid' y post m n L E Fr F TA Tx Ty. remember [lst 1 [itm "a"]; lst 2 [itm "b"]] as f eqn:Ef. destruct L as [f|f t l I L]; subst f.
  - apply (f_equal (@length tree)) in E. rewrite app_length in E. cbn in E. rewrite app_length in E. cbn in E. rewrite app_length in E. cbn in E. lia.
  - assert (K : forall s l, Level [itm s] l -> Forall (fun t => type_of t = None) l). { clear. intros s l L. inversion L as [|f t l' I L']; subst; [repeat constructor|]. destruct I as [<-|[]]. inversion L' as [|f t l' I L2]; subst; [repeat constructor|]. destruct I as [<-|[]]. inversion L2 as [|f t l' I L3]; subst; [constructor|destruct I]. }
    assert (Z : Forall (fun t => type_of t = None) l) by (destruct I as [<-|[<-|[]]]; exact (K _ _ L)). rewrite E in Z. apply Forall_app in Z as (_ & Z). inversion Z; congruence.
Qed.
Print Assumptions C312_partial.

(** C313: afterwards adjacent lists have one type, everywhere. Not inside items that were moved: *)
Lemma settled_part a b : settled (a ++ b) -> settled b.
Proof. intros H l L. induction a as [|[k s cs] a IH]; [exact (H l L)|]. apply IH. exact (proj2 (settled_below k s cs (a ++ b) H)). Qed.
Theorem C313_refuted : forall m n s1 s2 x y, m <> n -> settled x -> ~ settled y -> exists g, merge [Node (KList m) s1 x; Node (KList n) s2 y] = Some g /\ ~ settled g.
Proof.
  intros m n s1 s2 x y N Hx Hy. pose proof (step_run m s1 x [Node (KList n) s2 y]) as S. cbn [filter] in S. change (same m (Node (KList n) s2 y)) with (m =? n) in S. rewrite (proj2 (Nat.eqb_neq m n) N) in S. cbn [negb flat_map kids app] in S. rewrite app_nil_r in S. eexists. split; [apply step_merge, S; [repeat constructor; discriminate|exact Hx|intros t [<-|[]]; cbn; intros [= Q]; congruence]|]. intro H. apply Hy. destruct (settled_below _ _ _ _ H) as (H1 & _). exact (settled_part x y H1).
Qed.
Example C313_refuted_case : let y := [Node KOther [] [lst 1 [itm "b"]; lst 2 [itm "c"]]] in merge [lst 1 [itm "a"]; lst 2 y] = Some [lst 1 (itm "a" :: y)].
Proof. vm_compute. reflexivity. Qed.
Print Assumptions C313_refuted.
Theorem C313_partial : forall f, proper f -> shallow f -> exists g, merge f = Some g /\ settled g.
Proof. intros f P H. destruct (merge_step f) as (g & E & S). exists g. split; [exact E|exact (step_settled f g S P H)]. Qed.
Example C313_case : merge [lst 1 [Node KOther [] [par "a"; lst 2 [itm "b"]; lst 1 [itm "c"]]]; lst 2 [itm "d"]; lst 1 [itm "e"]] = Some [lst 1 [Node KOther [] [par "a"; lst 2 [itm "b"; itm "c"]]; itm "d"]; lst 1 [itm "e"]].
Proof. vm_compute. reflexivity. Qed.
Example C313_case2 : proper [lst 1 [itm "a"]; lst 2 [itm "b"]] /\ shallow [lst 1 [itm "a"]; lst 2 [itm "b"]].
Proof.
  assert (K : forall s l, Level [itm s] l -> Forall (fun t => type_of t = None) l). { intros s l L. inversion L as [|f t l' I L']; subst; [repeat constructor|]. destruct I as [<-|[]]. inversion L' as [|f t l' I L2]; subst; [repeat constructor|]. destruct I as [<-|[]]. inversion L2 as [|f t l' I L3]; subst; [constructor|destruct I]. }
  assert (St : forall s, settled [itm s]). { intros s l L a x y b m n E Tx. apply K in L. rewrite E in L. apply Forall_app in L as (_ & L). inversion L; congruence. }
  split.
  - intros l t u L I Lt Iu. inversion L as [|f v l' J L']; subst; [destruct I as [<-|[<-|[]]]; destruct Iu as [<-|[]]; reflexivity|]. assert (Z : Forall (fun t => type_of t = None) l) by (destruct J as [<-|[<-|[]]]; exact (K _ _ L')). rewrite Forall_forall in Z. destruct (Lt (Z t I)).
  - intros l pre A mid y post m n L E Fr F TA Ty N. remember [lst 1 [itm "a"]; lst 2 [itm "b"]] as f eqn:Ef. destruct L as [f|f v l J L]; subst f.
    + assert (I : In y [lst 1 [itm "a"]; lst 2 [itm "b"]]) by (rewrite E; apply in_or_app; right; right; apply in_or_app; right; now left). destruct I as [<-|[<-|[]]]; apply St.
    + assert (Z : Forall (fun t => type_of t = None) l) by (destruct J as [<-|[<-|[]]]; exact (K _ _ L)). rewrite E in Z. apply Forall_app in Z as (_ & Z). inversion Z; congruence.
Qed.
Print Assumptions C313_partial.

(** C314 *)
Theorem C314_unchanged : forall f, merge f = Some f <-> settled f.
Proof. intro f. split; [intro H; exact (step_same f f (merge_some f f H) eq_refl)|]. intro H. apply step_merge. exact (settled_step _ f (le_n _) H). Qed.
Example C314_case : settled [lst 1 [itm "a"]; lst 1 [itm "b"]; par "c"; lst 2 [itm "d"]].
Proof. apply C314_unchanged. vm_compute. reflexivity. Qed.
Print Assumptions C314_unchanged.

(** C315: the first list gets the items of the other lists that differ, in order, and keeps its type. *)
Theorem C315_run : forall n s cs run, Forall listy run -> settled cs -> (forall t, In t run -> settled (kids t)) ->
  merge (Node (KList n) s cs :: run) = Some (Node (KList n) s (cs ++ flat_map kids (filter (fun t => negb (same n t)) run)) :: filter (same n) run).
Proof. intros n s cs run F Hc Hr. apply step_merge. apply step_run; auto. Qed.
Example C315_case : merge [lst 1 [itm "a"]; lst 2 [itm "b"]; lst 1 [itm "c"]; lst 3 [itm "d"]] = Some [lst 1 [itm "a"; itm "b"; itm "d"]; lst 1 [itm "c"]].
Proof. vm_compute. reflexivity. Qed.
Print Assumptions C315_run.

(** C316 *)
Theorem C316_separated : forall a x b, type_of x = None -> exists g h, merge (a ++ [x]) = Some g /\ merge b = Some h /\ merge (a ++ x :: b) = Some (g ++ h).
Proof.
  intros a x b X. destruct (merge_step (a ++ [x])) as (g & E1 & S1). destruct (merge_step b) as (h & E2 & S2). exists g, h. split; [exact E1|]. split; [exact E2|]. apply step_merge. exact (step_sep x b h X S2 _ g S1 a eq_refl).
Qed.
Example C316_case : merge ([lst 1 [itm "a"]] ++ par "b" :: [lst 2 [itm "c"]; lst 1 [itm "d"]]) = Some [lst 1 [itm "a"]; par "b"; lst 2 [itm "c"; itm "d"]].
Proof. vm_compute. reflexivity. Qed.
Print Assumptions C316_separated.
