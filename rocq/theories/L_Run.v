(** Proofs about M_Run: memory. *)
From Verif Require Import Base BaseL M_Opt M_Run S_Run.

(** ** Variables *)
Definition all_tsteps : list tstep := TMetaVars :: order.
Definition all_vars : list var :=
  [VWorking; VNormal; VFinal; VManager; VMeta; VAlds; VAbbr; VBib; VIndex; VImg; VLiquidTags;
   VParser; VDoc; VHtml; VCss; VHead; VFoot; VLang; VQuotes; VScripts; VTitle; VCssPaths; VFooter;
   VOut] ++ map VStep all_tsteps.
Definition var_of (n : N) : option var := find (fun v => N.eqb (vnum v) n) all_vars.
Lemma var_of_num v : var_of (vnum v) = Some v.
Proof. destruct v; try reflexivity. destruct s; reflexivity. Qed.
Lemma veq_eq a b : veq a b = true <-> a = b.
Proof.
  unfold veq. split.
  - intro H. apply N.eqb_eq in H. assert (E : Some a = Some b) by (rewrite <- !var_of_num, H; reflexivity).
    now injection E.
  - intros ->. apply N.eqb_refl.
Qed.
Lemma veq_refl a : veq a a = true.
Proof. now apply veq_eq. Qed.
Lemma veq_neq a b : veq a b = false <-> a <> b.
Proof.
  split; intro H.
  - intros ->. now rewrite veq_refl in H.
  - destruct (veq a b) eqn:E; [|reflexivity]. now apply veq_eq in E.
Qed.
Lemma veq_sym a b : veq a b = veq b a.
Proof. unfold veq. apply N.eqb_sym. Qed.
Lemma var_dec (a b : var) : {a = b} + {a <> b}.
Proof. destruct (veq a b) eqn:E; [left; now apply veq_eq|right; now apply veq_neq]. Qed.
Lemma tstep_dec (a b : tstep) : {a = b} + {a <> b}.
Proof. decide equality. Qed.

(** Membership by computation. *)
Definition inb (v : var) (l : list var) : bool := existsb (veq v) l.
Lemma inb_in v l : inb v l = true <-> In v l.
Proof.
  unfold inb. rewrite existsb_exists. split.
  - intros (x & Hx & E). apply veq_eq in E as ->. assumption.
  - intro H. exists v. split; [assumption|apply veq_refl].
Qed.
Lemma notin_b v l : inb v l = false -> ~ In v l.
Proof. intros H F. apply inb_in in F. congruence. Qed.
Lemma sub_b v l k : In v l -> forallb (fun x => inb x k) l = true -> In v k.
Proof. intros H F. rewrite forallb_forall in F. apply inb_in. now apply F. Qed.
Lemma dis_b v l k : In v l -> forallb (fun x => negb (inb x k)) l = true -> ~ In v k.
Proof.
  intros H F G. rewrite forallb_forall in F. apply F in H. apply inb_in in G. rewrite G in H. discriminate.
Qed.
Lemma neq_b v l x : In v l -> inb x l = false -> v <> x.
Proof. intros H F ->. apply inb_in in H. congruence. Qed.
Ltac isin := solve [apply inb_in; reflexivity].
Ltac notin := solve [apply notin_b; reflexivity].
Ltac subin H := solve [apply (sub_b _ _ _ H); reflexivity].
Ltac disin H := solve [apply (dis_b _ _ _ H); reflexivity].
Ltac neqin H := solve [apply (neq_b _ _ _ H); reflexivity].

(** ** What a variable points to *)
Inductive vst := Null | Holds (c : str) | Gone.
Definition view := var -> vst.
Definition upd (a : view) (v : var) (x : vst) : view := fun w => if veq w v then x else a w.
Lemma upd_eq a v x : upd a v x v = x.
Proof. unfold upd. now rewrite veq_refl. Qed.
Lemma upd_neq a v x w : w <> v -> upd a v x w = a w.
Proof. intro H. unfold upd. now rewrite (proj2 (veq_neq w v) H). Qed.
Definition kill (x : vst) : vst := match x with Holds _ => Gone | _ => x end.

Section Mem.
Context {R : Type}.
Notation st := (st R).
Implicit Types s : st.
Implicit Types a : view.

Record rep s a : Prop := Rep {
  rep_null : forall v, a v = Null -> env s v = None;
  rep_holds : forall v c, a v = Holds c -> exists p, env s v = Some p /\ lookup p (live s) = Some c;
  rep_gone : forall v, a v = Gone -> exists p, env s v = Some p /\ lookup p (live s) = None;
  rep_inj : forall v w p, env s v = Some p -> env s w = Some p -> v = w;
  rep_all : forall p, lookup p (live s) <> None -> exists v, env s v = Some p;
  rep_lt : forall v p, env s v = Some p -> p < fresh s }.

(** Two views that agree are as good as each other. *)
Lemma rep_ext s a b : (forall v, a v = b v) -> rep s a -> rep s b.
Proof.
  intros E [H1 H2 H3 H4 H5 H6]. split; auto; intros v; rewrite <- E; auto.
Qed.

Lemma lookup_drop p q l : lookup p (drop q l) = if Nat.eqb p q then None else lookup p l.
Proof.
  induction l as [|[x c] l IH]; simpl; [now destruct (Nat.eqb p q)|].
  destruct (Nat.eqb q x) eqn:E; simpl.
  - apply Nat.eqb_eq in E as ->. rewrite IH. destruct (Nat.eqb p x) eqn:F; reflexivity.
  - rewrite IH. destruct (Nat.eqb p x) eqn:F; [|reflexivity].
    apply Nat.eqb_eq in F as ->. rewrite Nat.eqb_sym, E. reflexivity.
Qed.

Lemma bind_ok {A C} (m : @M R A) (k : A -> @M R C) s x s' :
  m s = Ok x s' -> bind m k s = k x s'.
Proof. intro H. unfold bind. now rewrite H. Qed.
Lemma bind_ub {A C} (m : @M R A) (k : A -> @M R C) s u :
  m s = Ub u -> bind m k s = Ub u.
Proof. intro H. unfold bind. now rewrite H. Qed.

(** The text pointer points into a live block. *)
Definition tx s a (t : str) : Prop := exists v, env s v = Some (txt s) /\ a v = Holds t.

Lemma env_holds s a v p : rep s a -> env s v = Some p -> lookup p (live s) <> None ->
  exists c, a v = Holds c /\ lookup p (live s) = Some c.
Proof.
  intros Hr E L. destruct (a v) as [|c|] eqn:Ea.
  - rewrite (rep_null _ _ Hr v Ea) in E. discriminate.
  - destruct (rep_holds _ _ Hr v c Ea) as (q & Eq & Lq). rewrite E in Eq.
    injection Eq as ->. eauto.
  - destruct (rep_gone _ _ Hr v Ea) as (q & Eq & Lq). rewrite E in Eq. injection Eq as ->. now elim L.
Qed.

(** *** Operations *)
Lemma owner_ok v s : owner v s = Ok (env s v) s.
Proof. reflexivity. Qed.

Lemma alloc_ok v c s a : rep s a -> a v = Null -> exists s',
  alloc v c s = Ok (fresh s) s' /\ rep s' (upd a v (Holds c)) /\ reg s' = reg s /\ txt s' = txt s /\
  env s' v = Some (fresh s) /\ (forall w, w <> v -> env s' w = env s w) /\
  lookup (fresh s) (live s') = Some c.
Proof.
  intros Hr Hv. eexists. split; [reflexivity|]. cbn [live env reg txt fresh].
  assert (Fr : forall p, lookup p (live s) <> None -> p <> fresh s).
  { intros p L ->. destruct (rep_all _ _ Hr _ L) as (w & Ew). pose proof (rep_lt _ _ Hr _ _ Ew). lia. }
  assert (Fe : forall w, env s w <> Some (fresh s)).
  { intros w Ew. pose proof (rep_lt _ _ Hr _ _ Ew). lia. }
  split; [|split; [reflexivity|split; [reflexivity|]]].
  2:{ rewrite veq_refl. split; [reflexivity|]. split.
      - intros w Hw. now rewrite (proj2 (veq_neq w v) Hw).
      - simpl. now rewrite Nat.eqb_refl. }
  split; cbn [live env fresh].
  - intros w Hw. unfold upd in Hw. destruct (veq w v); [discriminate|]. now apply (rep_null _ _ Hr).
  - intros w x Hw. unfold upd in Hw. destruct (veq w v) eqn:E.
    + injection Hw as <-. eexists. split; [reflexivity|]. simpl. now rewrite Nat.eqb_refl.
    + destruct (rep_holds _ _ Hr _ _ Hw) as (p & Ep & Lp). exists p. split; [assumption|].
      simpl. destruct (Nat.eqb p (fresh s)) eqn:F; [|assumption].
      apply Nat.eqb_eq in F. subst p. now elim (Fe w).
  - intros w Hw. unfold upd in Hw. destruct (veq w v) eqn:E; [discriminate|].
    destruct (rep_gone _ _ Hr _ Hw) as (p & Ep & Lp). exists p. split; [assumption|].
    simpl. destruct (Nat.eqb p (fresh s)) eqn:F; [|assumption].
    apply Nat.eqb_eq in F. subst p. now elim (Fe w).
  - intros w x p. destruct (veq w v) eqn:E, (veq x v) eqn:E'; intros H H'.
    + apply veq_eq in E. apply veq_eq in E'. congruence.
    + injection H as <-. now elim (Fe x).
    + injection H' as <-. now elim (Fe w).
    + now apply (rep_inj _ _ Hr w x p).
  - intros p L. simpl in L. destruct (Nat.eqb p (fresh s)) eqn:F.
    + apply Nat.eqb_eq in F as ->. exists v. now rewrite veq_refl.
    + destruct (rep_all _ _ Hr p L) as (w & Ew). exists w. destruct (veq w v) eqn:E; [|assumption].
      apply veq_eq in E as ->. rewrite (rep_null _ _ Hr v Hv) in Ew. discriminate.
  - intros w p. destruct (veq w v).
    + intro H. injection H as <-. lia.
    + intro H. pose proof (rep_lt _ _ Hr _ _ H). lia.
Qed.

Lemma own_if_ok b v s a : rep s a -> a v = Null -> exists s',
  own_if b v s = Ok tt s' /\ rep s' (if b then upd a v (Holds []) else a) /\ reg s' = reg s /\ txt s' = txt s /\
  (forall w, w <> v -> env s' w = env s w).
Proof.
  intros Hr Hv. unfold own_if. destruct b.
  - destruct (alloc_ok v [] s a Hr Hv) as (s' & E & Hr' & ? & ? & ? & ? & ?).
    exists s'. rewrite (bind_ok _ _ _ _ _ E). auto 6.
  - exists s. auto 6.
Qed.

Lemma read_ok p c s : lookup p (live s) = Some c -> read p s = Ok c s.
Proof. intro H. unfold read. now rewrite H. Qed.

Lemma release_ok v p s a : rep s a -> env s v = Some p -> a v <> Gone -> exists s',
  release p s = Ok tt s' /\ rep s' (upd a v Gone) /\ reg s' = reg s /\ txt s' = txt s /\
  (forall w, env s' w = env s w).
Proof.
  intros Hr Hv Hg. destruct (a v) as [|c|] eqn:Ea; [rewrite (rep_null _ _ Hr v Ea) in Hv; discriminate| |now elim Hg].
  destruct (rep_holds _ _ Hr v c Ea) as (q & Eq & Lq). rewrite Hv in Eq. injection Eq as <-.
  unfold release. rewrite Lq. eexists. split; [reflexivity|]. cbn [reg txt env].
  split; [|auto]. split; cbn [live env fresh].
  - intros w Hw. unfold upd in Hw. destruct (veq w v); [discriminate|]. now apply (rep_null _ _ Hr).
  - intros w x Hw. unfold upd in Hw. destruct (veq w v) eqn:E; [discriminate|].
    destruct (rep_holds _ _ Hr _ _ Hw) as (q & Ew & Lw). exists q. split; [assumption|].
    rewrite lookup_drop. destruct (Nat.eqb q p) eqn:F; [|assumption].
    apply Nat.eqb_eq in F. subst q. apply veq_neq in E. elim E. now apply (rep_inj _ _ Hr _ _ p).
  - intros w Hw. unfold upd in Hw. destruct (veq w v) eqn:E.
    + apply veq_eq in E. subst w. exists p. split; [assumption|]. now rewrite lookup_drop, Nat.eqb_refl.
    + destruct (rep_gone _ _ Hr _ Hw) as (q & Ew & Lw). exists q. split; [assumption|].
      rewrite lookup_drop, Lw. now destruct (Nat.eqb q p).
  - apply (rep_inj _ _ Hr).
  - intros q L. rewrite lookup_drop in L. destruct (Nat.eqb q p); [now elim L|]. now apply (rep_all _ _ Hr).
  - apply (rep_lt _ _ Hr).
Qed.

Lemma free_ok v s a : rep s a -> a v <> Gone -> exists s',
  free v s = Ok tt s' /\ rep s' (upd a v (kill (a v))) /\ reg s' = reg s /\ txt s' = txt s /\
  (forall w, env s' w = env s w).
Proof.
  intros Hr Hg. unfold free. rewrite (bind_ok _ _ _ _ _ (owner_ok v s)).
  destruct (a v) as [|c|] eqn:Ea.
  - rewrite (rep_null _ _ Hr v Ea). exists s. split; [reflexivity|]. split; [|auto].
    apply (rep_ext s a); [|assumption]. intro w. unfold upd. destruct (veq w v) eqn:E; [|reflexivity].
    apply veq_eq in E as ->. assumption.
  - destruct (rep_holds _ _ Hr v c Ea) as (p & Ep & Lp). rewrite Ep.
    destruct (release_ok v p s a Hr Ep) as (s' & E & Hr' & X); [congruence|].
    exists s'. auto.
  - now elim Hg.
Qed.

Lemma free_all_ok vs : forall s a, rep s a -> NoDup vs -> (forall v, In v vs -> a v <> Gone) -> exists s' a',
  free_all vs s = Ok tt s' /\ rep s' a' /\ reg s' = reg s /\ txt s' = txt s /\
  (forall w, env s' w = env s w) /\
  (forall w, In w vs -> a' w = kill (a w)) /\ (forall w, ~ In w vs -> a' w = a w).
Proof.
  induction vs as [|v vs IH]; intros s a Hr Hn Hg; cbn [free_all].
  - exists s, a. split; [reflexivity|]. split; [assumption|]. split; [reflexivity|]. split; [reflexivity|].
    split; [reflexivity|]. split; [intros w []|reflexivity].
  - apply NoDup_cons_iff in Hn as [Hv Hn].
    destruct (free_ok v s a Hr) as (s1 & E1 & Hr1 & Q1 & T1 & N1); [apply Hg; now left|].
    destruct (IH s1 _ Hr1 Hn) as (s2 & a2 & E2 & Hr2 & Q2 & T2 & N2 & In2 & Out2).
    { intros w Hw. rewrite upd_neq by (intros ->; contradiction). apply Hg. now right. }
    exists s2, a2. rewrite (bind_ok _ _ _ _ _ E1). split; [assumption|]. split; [assumption|].
    split; [congruence|]. split; [congruence|]. split; [intro w; now rewrite N2|].
    split.
    + intros w [<-|Hw].
      * rewrite Out2 by assumption. apply upd_eq.
      * rewrite In2 by assumption. now rewrite upd_neq by (intros ->; contradiction).
    + intros w Hw. rewrite Out2 by (intro; apply Hw; now right).
      apply upd_neq. intros ->. apply Hw. now left.
Qed.

Lemma touch_ok v s a : rep s a -> a v <> Gone -> touch v s = Ok tt s.
Proof.
  intros Hr Hg. unfold touch. rewrite (bind_ok _ _ _ _ _ (owner_ok v s)).
  destruct (a v) as [|c|] eqn:Ea; [now rewrite (rep_null _ _ Hr v Ea)| |now elim Hg].
  destruct (rep_holds _ _ Hr v c Ea) as (p & Ep & Lp). rewrite Ep.
  now rewrite (bind_ok _ _ _ _ _ (read_ok p c s Lp)).
Qed.
Lemma touch_gone v s a : rep s a -> a v = Gone -> touch v s = Ub ReadFreed.
Proof.
  intros Hr Hg. unfold touch. rewrite (bind_ok _ _ _ _ _ (owner_ok v s)).
  destruct (rep_gone _ _ Hr v Hg) as (p & Ep & Lp). rewrite Ep.
  apply bind_ub. unfold read. now rewrite Lp.
Qed.
Lemma touch_all_ok vs s a : rep s a -> (forall v, In v vs -> a v <> Gone) -> touch_all vs s = Ok tt s.
Proof.
  intros Hr. induction vs as [|v vs IH]; intro Hg; cbn [touch_all]; [reflexivity|].
  rewrite (bind_ok _ _ _ _ _ (touch_ok v s a Hr (Hg v (or_introl eq_refl)))).
  apply IH. intros w Hw. apply Hg. now right.
Qed.

Definition there (x : vst) : bool := match x with Null => false | _ => true end.
Lemma isset_ok v s a : rep s a -> isset v s = Ok (there (a v)) s.
Proof.
  intro Hr. unfold isset. rewrite (bind_ok _ _ _ _ _ (owner_ok v s)). unfold ret. f_equal.
  destruct (a v) as [|c|] eqn:Ea.
  - now rewrite (rep_null _ _ Hr v Ea).
  - destruct (rep_holds _ _ Hr v c Ea) as (p & Ep & _). now rewrite Ep.
  - destruct (rep_gone _ _ Hr v Ea) as (p & Ep & _). now rewrite Ep.
Qed.

Lemma set_reg_ok r s a : rep s a -> exists s', set_reg r s = Ok tt s' /\ rep s' a /\ reg s' = r /\
  txt s' = txt s /\ env s' = env s.
Proof. intros [H1 H2 H3 H4 H5 H6]. eexists. split; [reflexivity|]. split; [|auto]. now split. Qed.
Lemma set_text_ok p s a : rep s a -> exists s', set_text p s = Ok tt s' /\ rep s' a /\ reg s' = reg s /\
  txt s' = p /\ env s' = env s.
Proof. intros [H1 H2 H3 H4 H5 H6]. eexists. split; [reflexivity|]. split; [|auto]. now split. Qed.

(** A variable whose block is gone goes out of scope. *)
Lemma forget_ok v s a : rep s a -> (forall c, a v <> Holds c) -> exists s',
  forget v s = Ok tt s' /\ rep s' (upd a v Null) /\ reg s' = reg s /\ txt s' = txt s /\
  (forall w, w <> v -> env s' w = env s w).
Proof.
  intros Hr Hv. eexists. split; [reflexivity|]. cbn [reg txt env].
  split; [|split; [reflexivity|split; [reflexivity|]]].
  2:{ intros w Hw. now rewrite (proj2 (veq_neq w v) Hw). }
  split; cbn [live env fresh].
  - intros w Hw. unfold upd in Hw. destruct (veq w v); [reflexivity|]. now apply (rep_null _ _ Hr).
  - intros w x Hw. unfold upd in Hw. destruct (veq w v) eqn:E; [discriminate|]. now apply (rep_holds _ _ Hr).
  - intros w Hw. unfold upd in Hw. destruct (veq w v) eqn:E; [discriminate|]. now apply (rep_gone _ _ Hr).
  - intros w x p. destruct (veq w v), (veq x v); try discriminate. apply (rep_inj _ _ Hr).
  - intros p L. destruct (rep_all _ _ Hr p L) as (w & Ew). exists w. destruct (veq w v) eqn:E; [|assumption].
    apply veq_eq in E as ->. destruct (env_holds s a v p Hr Ew L) as (c & Ec & _). now elim (Hv c).
  - intros w p. destruct (veq w v); [discriminate|]. apply (rep_lt _ _ Hr).
Qed.

(** A block is overwritten. *)
Lemma store_ok v p c s a : rep s a -> env s v = Some p -> (exists d, a v = Holds d) -> exists s',
  store p c s = Ok tt s' /\ rep s' (upd a v (Holds c)) /\ reg s' = reg s /\ txt s' = txt s /\ env s' = env s.
Proof.
  intros Hr Hv [d Hd]. destruct (rep_holds _ _ Hr v d Hd) as (q & Eq & Lq).
  rewrite Hv in Eq. injection Eq as <-. unfold store. rewrite Lq. eexists. split; [reflexivity|].
  cbn [reg txt env]. split; [|auto].
  assert (K : forall q, q <> p -> lookup q ((p, c) :: drop p (live s)) = lookup q (live s)).
  { intros q Hq. simpl. destruct (Nat.eqb q p) eqn:F; [apply Nat.eqb_eq in F; contradiction|].
    now rewrite lookup_drop, F. }
  split; cbn [live env fresh].
  - intros w Hw. unfold upd in Hw. destruct (veq w v); [discriminate|]. now apply (rep_null _ _ Hr).
  - intros w x Hw. unfold upd in Hw. destruct (veq w v) eqn:E.
    + apply veq_eq in E as ->. injection Hw as <-. exists p. split; [assumption|]. simpl. now rewrite Nat.eqb_refl.
    + destruct (rep_holds _ _ Hr _ _ Hw) as (q & Ew & Lw). exists q. split; [assumption|].
      rewrite K; [assumption|]. intros ->. apply veq_neq in E. elim E. now apply (rep_inj _ _ Hr _ _ p).
  - intros w Hw. unfold upd in Hw. destruct (veq w v) eqn:E; [discriminate|].
    destruct (rep_gone _ _ Hr _ Hw) as (q & Ew & Lw). exists q. split; [assumption|].
    rewrite K; [assumption|]. intros ->. congruence.
  - apply (rep_inj _ _ Hr).
  - intros q L. destruct (Nat.eq_dec q p) as [->|Hq]; [now exists v|]. rewrite K in L by assumption.
    now apply (rep_all _ _ Hr).
  - apply (rep_lt _ _ Hr).
Qed.

(** A new block takes the place of the old one, which is released. *)
Lemma swap_ok v c p d s a : rep s a -> env s v = Some p -> a v = Holds d -> exists s1 s',
  alloc v c s = Ok (fresh s) s1 /\ release p s1 = Ok tt s' /\
  rep s' (upd a v (Holds c)) /\ reg s' = reg s /\ txt s' = txt s /\ env s' v = Some (fresh s) /\
  (forall w, w <> v -> env s' w = env s w) /\ lookup (fresh s) (live s') = Some c.
Proof.
  intros Hr Hp Hd. destruct (rep_holds _ _ Hr v d Hd) as (q & Eq & Lq). rewrite Hp in Eq. injection Eq as <-.
  pose proof (rep_lt _ _ Hr _ _ Hp) as Lt.
  assert (NE : Nat.eqb p (fresh s) = false) by (apply Nat.eqb_neq; lia).
  eexists. eexists. split; [reflexivity|].
  unfold release. cbn [live env fresh txt reg]. simpl lookup. rewrite NE, Lq. split; [reflexivity|].
  assert (DE : drop p ((fresh s, c) :: live s) = (fresh s, c) :: drop p (live s)).
  { unfold drop. cbn [filter fst]. now rewrite NE. }
  cbn [live env fresh txt reg]. rewrite DE.
  assert (Fe : forall w, env s w <> Some (fresh s)).
  { intros w Ew. pose proof (rep_lt _ _ Hr _ _ Ew). lia. }
  split; [|split; [reflexivity|split; [reflexivity|]]].
  2:{ rewrite veq_refl. split; [reflexivity|]. split.
      - intros w Hw. now rewrite (proj2 (veq_neq w v) Hw).
      - simpl. now rewrite Nat.eqb_refl. }
  assert (K : forall q, q <> fresh s -> q <> p -> lookup q ((fresh s, c) :: drop p (live s)) = lookup q (live s)).
  { intros q H1 H2. simpl. apply Nat.eqb_neq in H1. apply Nat.eqb_neq in H2. now rewrite H1, lookup_drop, H2. }
  split; cbn [live env fresh].
  - intros w Hw. unfold upd in Hw. destruct (veq w v); [discriminate|]. now apply (rep_null _ _ Hr).
  - intros w x Hw. unfold upd in Hw. destruct (veq w v) eqn:E.
    + injection Hw as <-. eexists. split; [reflexivity|]. simpl. now rewrite Nat.eqb_refl.
    + destruct (rep_holds _ _ Hr _ _ Hw) as (q & Ew & Lw). exists q. split; [assumption|].
      rewrite K; [assumption| |]; intros ->.
      * now elim (Fe w).
      * apply veq_neq in E. elim E. now apply (rep_inj _ _ Hr _ _ p).
  - intros w Hw. unfold upd in Hw. destruct (veq w v) eqn:E; [discriminate|].
    destruct (rep_gone _ _ Hr _ Hw) as (q & Ew & Lw). exists q. split; [assumption|].
    rewrite K; [assumption| |]; intros ->.
    + now elim (Fe w).
    + congruence.
  - intros w x q. destruct (veq w v) eqn:E, (veq x v) eqn:E'; intros H H'.
    + apply veq_eq in E. apply veq_eq in E'. congruence.
    + injection H as <-. now elim (Fe x).
    + injection H' as <-. now elim (Fe w).
    + now apply (rep_inj _ _ Hr w x q).
  - intros q L. destruct (Nat.eq_dec q (fresh s)) as [->|Hq]; [exists v; now rewrite veq_refl|].
    destruct (Nat.eq_dec q p) as [->|Hq2].
    + elim L. simpl. now rewrite NE, lookup_drop, Nat.eqb_refl.
    + rewrite K in L by assumption. destruct (rep_all _ _ Hr q L) as (w & Ew). exists w.
      destruct (veq w v) eqn:E; [|assumption]. apply veq_eq in E as ->. congruence.
  - intros w q. destruct (veq w v).
    + intro H. injection H as <-. lia.
    + intro H. pose proof (rep_lt _ _ Hr _ _ H). lia.
Qed.

(** A block is handed over; the old value of the target is not used any more. *)
Lemma move_ok v w c s a : rep s a -> v <> w -> a v = Holds c -> a w = Gone -> exists s',
  move v w s = Ok tt s' /\ rep s' (upd (upd a v Null) w (Holds c)) /\ reg s' = reg s /\ txt s' = txt s /\
  env s' w = env s v /\ (forall x, x <> v -> x <> w -> env s' x = env s x).
Proof.
  intros Hr Hn Hv Hw. destruct (rep_holds _ _ Hr v c Hv) as (p & Ep & Lp).
  destruct (rep_gone _ _ Hr w Hw) as (q & Eq & Lq).
  eexists. split; [reflexivity|]. cbn [reg txt env].
  split; [|split; [reflexivity|split; [reflexivity|]]].
  2:{ rewrite veq_refl. split; [reflexivity|]. intros x H1 H2.
      now rewrite (proj2 (veq_neq x w) H2), (proj2 (veq_neq x v) H1). }
  split; cbn [live env fresh].
  - intros x Hx. unfold upd in Hx. destruct (veq x w); [discriminate|].
    destruct (veq x v); [reflexivity|]. now apply (rep_null _ _ Hr).
  - intros x d Hx. unfold upd in Hx. destruct (veq x w); [injection Hx as <-; now exists p|].
    destruct (veq x v); [discriminate|]. now apply (rep_holds _ _ Hr).
  - intros x Hx. unfold upd in Hx. destruct (veq x w); [discriminate|].
    destruct (veq x v); [discriminate|]. now apply (rep_gone _ _ Hr).
  - intros x y z. destruct (veq x w) eqn:E1, (veq y w) eqn:E2.
    + apply veq_eq in E1. apply veq_eq in E2. congruence.
    + destruct (veq y v) eqn:E3; [discriminate|]. intros H H'. apply veq_neq in E3. elim E3.
      now apply (rep_inj _ _ Hr _ _ z).
    + destruct (veq x v) eqn:E3; [discriminate|]. intros H H'. apply veq_neq in E3. elim E3.
      now apply (rep_inj _ _ Hr _ _ z).
    + destruct (veq x v); [discriminate|]. destruct (veq y v); [discriminate|]. apply (rep_inj _ _ Hr).
  - intros z L. destruct (rep_all _ _ Hr z L) as (x & Ex). destruct (veq x v) eqn:E.
    + apply veq_eq in E as ->. exists w. now rewrite veq_refl.
    + exists x. destruct (veq x w) eqn:E'; [|now rewrite E].
      apply veq_eq in E' as ->. congruence.
  - intros x z. destruct (veq x w); [apply (rep_lt _ _ Hr)|].
    destruct (veq x v); [discriminate|]. apply (rep_lt _ _ Hr).
Qed.
End Mem.
