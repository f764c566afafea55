(** Lemmas about merged lists. *)
From Verif Require Import Base BaseL S_Merge M_Merge.
From Coq Require Import Permutation.

Definition wt (f : list tree) : nat := fold_right (fun t n => weight t + n) 0 f.
Lemma wt_cons k s cs r : wt (Node k s cs :: r) = S (wt cs + wt r).
Proof. reflexivity. Qed.
Lemma wt_app a b : wt (a ++ b) = wt a + wt b.
Proof. induction a as [|[k s cs] a IH]; [reflexivity|]. rewrite <- app_comm_cons, !wt_cons, IH. lia. Qed.

Lemma absorb_shape n r : exists run rest, r = run ++ rest /\ Forall listy run /\ (forall t q, rest = t :: q -> type_of t = None)
  /\ absorb n r = (flat_map kids (filter (fun t => negb (same n t)) run), filter (same n) run ++ rest).
Proof.
  induction r as [|[[m|] s cs] r (run & rest & E & F & H & A)].
  - exists [], []. repeat split; [constructor|]. discriminate.
  - exists (Node (KList m) s cs :: run), rest. split; [now rewrite E|]. split; [constructor; [discriminate|exact F]|]. split; [exact H|]. cbn [absorb]. rewrite A. cbn [filter]. replace (same n (Node (KList m) s cs)) with (n =? m) by reflexivity. destruct (n =? m); reflexivity.
  - exists [], (Node KOther s cs :: r). repeat split; [constructor|]. intros t q [= <- _]. reflexivity.
Qed.
Definition grab (k : kind) (r : list tree) : list tree * list tree := match k with KList ty => absorb ty r | KOther => ([], r) end.
Lemma grab_wt k r : wt (fst (grab k r)) + wt (snd (grab k r)) <= wt r.
Proof.
  destruct k as [n|]; cbn [grab]; [|apply le_n]. induction r as [|[[m|] s cs] r IH]; [apply le_n| |apply le_n]. cbn [absorb]. destruct (absorb n r) as [i q]. cbn [fst snd] in IH. destruct (n =? m); cbn [fst snd]; rewrite ?wt_cons, ?wt_app; lia.
Qed.

(** The loop as a relation *)
Inductive Step : list tree -> list tree -> Prop :=
| step_nil : Step [] []
| step_node k s cs r cs' r' : Step cs cs' -> Step (snd (grab k r)) r' -> Step (Node k s cs :: r) (Node k s (cs' ++ fst (grab k r)) :: r').
Lemma nodes_step fuel : forall f, wt f <= fuel -> exists g, nodes fuel f = Some g /\ Step f g.
Proof.
  induction fuel as [|fuel IH]; intros [|[k s cs] r] L; try (exists []; split; [reflexivity|constructor]); rewrite wt_cons in L; [lia|]. cbn [nodes]. destruct (IH cs) as (cs' & E1 & S1); [lia|]. rewrite E1. fold (grab k r). pose proof (grab_wt k r) as G. destruct (grab k r) as [i q] eqn:Q. cbn [fst snd] in G. destruct (IH q) as (r' & E2 & S2); [lia|]. rewrite E2. eexists. split; [reflexivity|]. pose proof (step_node k s cs r cs' r' S1) as S3. rewrite Q in S3. exact (S3 S2).
Qed.
Lemma merge_step f : exists g, merge f = Some g /\ Step f g.
Proof. apply nodes_step. apply le_n. Qed.
Lemma merge_some f g : merge f = Some g -> Step f g.
Proof. intro H. destruct (merge_step f) as (g' & E & S). congruence. Qed.
Lemma step_fun f g : Step f g -> forall h, Step f h -> g = h.
Proof. induction 1; intros h H'; inversion H'; subst; [reflexivity|]. f_equal; [f_equal; f_equal; auto|auto]. Qed.
Lemma step_merge f g : Step f g -> merge f = Some g.
Proof. intro H. destruct (merge_step f) as (g' & E & S). rewrite E. f_equal. symmetry. exact (step_fun _ _ H _ S). Qed.

(** What is said *)
Fixpoint said1 (t : tree) : list str := match t with Node k s cs => (match k with KList _ => [] | KOther => [s] end) ++ flat_map said1 cs end.
Definition said (f : list tree) : list str := flat_map said1 f.
Lemma said_cons k s cs r : said (Node k s cs :: r) = (match k with KList _ => [] | KOther => [s] end) ++ said cs ++ said r.
Proof. unfold said. cbn [flat_map said1]. now rewrite <- app_assoc. Qed.
Lemma said_app a b : said (a ++ b) = said a ++ said b.
Proof. apply flat_map_app. Qed.
Lemma says_said f a : Says f a -> a = said f.
Proof. induction 1; [reflexivity| |]; rewrite said_cons; subst; reflexivity. Qed.

Lemma said_run n run : Forall listy run -> Permutation (said (flat_map kids (filter (fun t => negb (same n t)) run)) ++ said (filter (same n) run)) (said run).
Proof.
  induction 1 as [|[[m|] s cs] run H _ IH]; [constructor| |now destruct H]. cbn [filter]. rewrite said_cons. cbn [app]. destruct (same n _); cbn [negb flat_map kids].
  - rewrite said_cons. cbn [app]. eapply Permutation_trans; [|apply Permutation_app_head; exact IH]. rewrite !app_assoc. apply Permutation_app_tail. apply Permutation_app_comm.
  - rewrite said_app, <- app_assoc. apply Permutation_app_head. exact IH.
Qed.
Lemma step_perm f g : Step f g -> Permutation (said f) (said g).
Proof.
  induction 1 as [|k s cs r cs' r' S1 IH1 S2 IH2]; [constructor|]. rewrite !said_cons, said_app. apply Permutation_app_head. rewrite <- app_assoc. eapply Permutation_trans; [apply Permutation_app_tail; exact IH1|]. apply Permutation_app_head. eapply Permutation_trans; [|apply Permutation_app_head; exact IH2].
  destruct k as [n|]; cbn [grab fst snd]; [|apply Permutation_refl]. destruct (absorb_shape n r) as (run & rest & -> & F & _ & ->). cbn [fst snd]. rewrite !said_app, app_assoc. apply Permutation_app_tail. apply Permutation_sym. now apply said_run.
Qed.

(** Lists of the result are lists of the document. *)
Lemma level_cons t f l : Level f l -> l = f \/ Level (t :: f) l.
Proof. intro H. destruct H as [f|f u l I H]; [now left|]. right. eapply level_below; [right; exact I|exact H]. Qed.
Lemma front_cons t pre : type_of t = None -> front pre -> front (t :: pre).
Proof. intros T [-> | (p & x & -> & X)]; right; [exists [], t; auto|exists (t :: p), x; auto]. Qed.
Lemma level_in f t l : In t f -> Level (kids t) l -> Level f l.
Proof. apply level_below. Qed.

(** Order *)
Definition ordered_run (n : nat) (run : list tree) : Prop := forall mid x mid' y post m, run = mid ++ x :: mid' ++ y :: post -> type_of x = Some n -> type_of y = Some m -> m = n.
Lemma all_same n run : Forall listy run -> (forall y m, In y run -> type_of y = Some m -> m = n) -> filter (same n) run = run /\ filter (fun t => negb (same n t)) run = [].
Proof.
  induction 1 as [|t run H F IH]; [now split|]. intro K. destruct IH as (I1 & I2); [intros y m I; apply K; now right|]. cbn [filter]. assert (Q : same n t = true) by (unfold same; destruct (type_of t) as [m|] eqn:T; [|now destruct H]; rewrite (K t m (or_introl eq_refl) T); apply Nat.eqb_refl). rewrite Q. cbn [negb]. split; [now rewrite I1|exact I2].
Qed.
Lemma run_order n run : Forall listy run -> ordered_run n run -> said (flat_map kids (filter (fun t => negb (same n t)) run)) ++ said (filter (same n) run) = said run.
Proof.
  induction 1 as [|t run H F IH]; [reflexivity|]. intro K. destruct t as [[m|] s cs]; [|now destruct H]. cbn [filter]. replace (same n (Node (KList m) s cs)) with (n =? m) by reflexivity. destruct (n =? m) eqn:E; cbn [negb].
  - apply Nat.eqb_eq in E. subst m. destruct (all_same n run F) as (A1 & A2). { intros y m I T. apply in_split in I as (mid' & post & ->). apply (K [] (Node (KList n) s cs) mid' y post m); [reflexivity|reflexivity|exact T]. } rewrite A1, A2. reflexivity.
  - cbn [flat_map kids]. rewrite said_app, <- app_assoc, IH; [now rewrite said_cons|]. intros mid x mid' y post m' Q. apply (K (Node (KList m) s cs :: mid) x mid' y post m'). now rewrite Q.
Qed.

Lemma front_tail a b c : front (a ++ b) -> b <> [] -> front (c ++ b).
Proof.
  intros F N. right. destruct (exists_last N) as (p & x & ->). exists (c ++ p), x. split; [now rewrite app_assoc|]. destruct F as [F|(p' & x' & F & X)]; [destruct a; [destruct p; discriminate F|discriminate F]|]. rewrite app_assoc in F. apply app_inj_tail in F as (_ & ->). exact X.
Qed.
(** A place in [S ++ rest] where a run begins: at the front of [S], or in [rest] where it begins a run as well. *)
Lemma run_place S rest pre A q : Forall listy S -> (forall t q, rest = t :: q -> type_of t = None) -> S ++ rest = pre ++ A :: q -> front pre -> listy A ->
  pre = [] \/ exists p, pre = S ++ p /\ rest = p ++ A :: q /\ (p <> [] /\ front p).
Proof.
  intros F H E Fr LA. destruct Fr as [-> | (p & x & -> & X)]; [now left|]. right. rewrite <- app_assoc in E. cbn [app] in E. revert p E. induction F as [|t S' T F IH]; intros p E.
  - exists (p ++ [x]). split; [reflexivity|]. split; [cbn in E; rewrite E, <- app_assoc; reflexivity|]. split; [now destruct p|]. right. now exists p, x.
  - destruct p as [|u p]; cbn in E; injection E as <- E; [now destruct T|]. destruct (IH p E) as (p' & P1 & P2 & P3). exists p'. split; [cbn; now rewrite P1|]. auto.
Qed.

Lemma level_kids f g l : (forall t, In t g -> In t f) -> Level g l -> l <> g -> Level f l.
Proof. intros H L N. destruct L as [g|g t l I L]; [now destruct N|]. exact (level_below f t l (H t I) L). Qed.
Lemma calm_kids k s cs r : calm (Node k s cs :: r) -> calm cs.
Proof. intros C l pre A mid x mid' y post m n L. apply (C l). apply (level_below _ (Node k s cs)); [now left|exact L]. Qed.

(** After a step at the front: what remains of the run has one type, and the rest begins no run. *)
Lemma calm_rest k s cs r : calm (Node k s cs :: r) -> calm (snd (grab k r)).
Proof.
  intros C. destruct k as [n|]; cbn [grab snd].
  - destruct (absorb_shape n r) as (run & rest & -> & F & H & ->). cbn [snd]. intros l pre A mid x mid' y post m m' L E Fr Fl TA Tx Ty. remember (filter (same n) run ++ rest) as f0 eqn:Ef in L. destruct L as [f|f t l I L]; subst f.
    + assert (Fs : Forall listy (filter (same n) run)) by (apply Forall_forall; intros t I; apply filter_In in I as (I & _); rewrite Forall_forall in F; exact (F t I)).
      destruct (run_place _ rest pre A _ Fs H E Fr) as [-> | (p & P1 & P2 & P3 & P4)]; [inversion Fl; assumption| |].
      * assert (K : forall t, In t (A :: mid ++ x :: mid' ++ [y]) -> In t (filter (same n) run)). { clear - E Fl H Fs. cbn [app] in E. replace (A :: mid ++ x :: mid' ++ y :: post) with ((A :: mid ++ x :: mid' ++ [y]) ++ post) in E by (cbn; rewrite <- !app_assoc; cbn; rewrite <- app_assoc; reflexivity). revert E. generalize (A :: mid ++ x :: mid' ++ [y]) (filter (same n) run) Fl Fs. clear - H. intros u. induction u as [|t u IH]; intros S Fl Fs E v I; [destruct I|]. inversion Fl as [|? ? L Fl']; subst. destruct S as [|t' S]; cbn in E; [destruct (L (H _ _ E))|]. injection E as -> E. inversion Fs; subst. destruct I as [<-|I]; [now left|right]. exact (IH S Fl' ltac:(assumption) E v I). }
        assert (KA := K A (or_introl eq_refl)). assert (Ky := K y ltac:(right; apply in_or_app; right; right; apply in_or_app; right; now left)). apply filter_In in KA as (_ & KA), Ky as (_ & Ky). unfold same in KA, Ky. rewrite TA in KA. rewrite Ty in Ky. apply Nat.eqb_eq in KA, Ky. congruence.
      * apply (C (Node (KList n) s cs :: run ++ rest) (Node (KList n) s cs :: run ++ p) A mid x mid' y post m m'); [apply level_here|cbn; rewrite P2, <- app_assoc; reflexivity| |exact Fl|exact TA|exact Tx|exact Ty]. apply (front_tail [] p (Node (KList n) s cs :: run)); [exact P4|exact P3].
    + apply (C l pre A mid x mid' y post m m'); auto. apply (level_below _ t); [|exact L]. right. apply in_app_or in I as [I|I]; apply in_or_app; [left; now apply filter_In in I|now right].
  - intros l pre A mid x mid' y post m m' L E Fr Fl TA Tx Ty. destruct L as [f|f t l I L].
    + apply (C (Node KOther s cs :: f) (Node KOther s cs :: pre) A mid x mid' y post m m'); auto; [apply level_here|cbn; now rewrite E|]. apply front_cons; [reflexivity|exact Fr].
    + apply (C l pre A mid x mid' y post m m'); auto. apply (level_below _ t); [right; exact I|exact L].
Qed.
Lemma step_order f g : Step f g -> calm f -> said g = said f.
Proof.
  induction 1 as [|k s cs r cs' r' S1 IH1 S2 IH2]; [reflexivity|]. intro C. rewrite !said_cons, said_app. f_equal. rewrite (IH1 (calm_kids _ _ _ _ C)), (IH2 (calm_rest _ _ _ _ C)), <- app_assoc. f_equal.
  destruct k as [n|]; cbn [grab fst snd]; [|reflexivity]. destruct (absorb_shape n r) as (run & rest & -> & F & H & ->). cbn [fst snd]. rewrite !said_app, app_assoc. f_equal. apply run_order; [exact F|]. intros mid x mid' y post m E Tx Ty.
  apply (C (Node (KList n) s cs :: run ++ rest) [] (Node (KList n) s cs) mid x mid' y (post ++ rest) n m); [apply level_here| |now left| |reflexivity|exact Tx|exact Ty].
  - rewrite E. cbn. rewrite <- app_assoc. cbn. rewrite <- app_assoc. reflexivity.
  - constructor; [discriminate|]. rewrite E in F. replace (mid ++ x :: mid' ++ y :: post) with ((mid ++ x :: mid' ++ [y]) ++ post) in F by (rewrite <- app_assoc; cbn; rewrite <- app_assoc; reflexivity). apply Forall_app in F. exact (proj1 F).
Qed.

(** Settled documents *)
Lemma settled_below k s cs r : settled (Node k s cs :: r) -> settled cs /\ settled r.
Proof.
  intro H. split; intros l L.
  - apply (H l). apply (level_below _ (Node k s cs)); [now left|exact L].
  - intros a x y b m n E. destruct (level_cons (Node k s cs) r l L) as [-> | L'].
    + apply (H _ (level_here _) (Node k s cs :: a) x y b m n). cbn. now rewrite E.
    + exact (H l L' a x y b m n E).
Qed.
Lemma settled_cons t r : settled (kids t) -> settled r -> (forall u q m n, r = u :: q -> type_of t = Some m -> type_of u = Some n -> m = n) -> settled (t :: r).
Proof.
  intros H1 H2 H3 l L. remember (t :: r) as f eqn:Ef. destruct L as [f|f u l I L]; subst f.
  - intros [|v a] x y b m n E; cbn in E; [injection E as <- E; apply (H3 y b m n E)|]. injection E as <- E. exact (H2 r (level_here r) a x y b m n E).
  - destruct I as [<-|I]; [exact (H1 l L)|]. apply H2. exact (level_below r u l I L).
Qed.
Lemma settled_nil : settled [].
Proof. intros l L. inversion L as [f|f t l' I]; subst; [|destruct I]. intros [|? ?]; discriminate. Qed.
Lemma settled_app a b : settled a -> settled b -> (forall t, In t (a ++ b) -> type_of t = None) -> settled (a ++ b).
Proof.
  intros H1 H2 H3 l L. remember (a ++ b) as f eqn:Ef. destruct L as [f|f u l I L]; subst f.
  - intros p x y q m n E T. rewrite (H3 x) in T; [discriminate|]. rewrite E. apply in_or_app. right. now left.
  - apply in_app_or in I as [I|I]; [apply H1|apply H2]; exact (level_below _ u l I L).
Qed.

Lemma step_types f g : Step f g -> forall t, In t g -> exists u, In u f /\ type_of u = type_of t.
Proof.
  induction 1 as [|k s cs r cs' r' S1 _ S2 IH]; intros t I; [destruct I|]. destruct I as [<-|I]; [exists (Node k s cs); split; [now left|reflexivity]|]. destruct (IH t I) as (u & Iu & E). exists u. split; [right|exact E]. destruct k as [n|]; cbn [grab snd] in Iu; [|exact Iu]. destruct (absorb_shape n r) as (run & rest & -> & _ & _ & A). rewrite A in Iu. cbn [snd] in Iu. apply in_app_or in Iu as [J|J]; apply in_or_app; [left; now apply filter_In in J|now right].
Qed.
Lemma step_head f g t q : Step f g -> g = t :: q -> exists u p, f = u :: p /\ type_of u = type_of t.
Proof. intros S ->. inversion S; subst. eexists _, _. split; reflexivity. Qed.
