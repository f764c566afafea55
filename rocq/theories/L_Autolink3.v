(** Lemmas for M_Autolink: an address after quiet text, and code. *)
From Verif Require Import Base BaseL L_Pass M_Relax M_Spans M_Autolink S_Autolink L_Autolink L_Autolink2.

Lemma attr_no bk : ~ In "<"%char bk -> attr bk = false.
Proof.
  intro N. unfold attr. destruct (span _ bk) as [i r] eqn:E. destruct (span_shape (fun c => negb (ceq c "<") && negb (ceq c ">")) bk) as (_ & _ & Q). rewrite E in Q. cbn [fst snd] in Q. destruct (ceq (at_ r 0) "<") eqn:C; [|reflexivity]. exfalso. apply ceq_eq in C. apply at_in in C as (q & ->); [|discriminate]. apply N. rewrite Q. apply in_or_app. right. left. reflexivity.
Qed.

Definition no_line (bk s : str) : Prop := line_move bk s = false.
Lemma line_away d bk s : d <> NL -> line_move (d :: bk) s = false.
Proof. intro N. unfold line_move. now rewrite (proj2 (ceq_neq _ _) N). Qed.
Lemma line_first bk c r : c <> SP -> c <> TAB -> c <> "["%char -> line_move bk (c :: r) = false.
Proof.
  intros N1 N2 N3. unfold line_move, indented, definition. cbn [span]. unfold is, gap at 1. rewrite (proj2 (ceq_neq _ _) N1), (proj2 (ceq_neq _ _) N2). cbn [orb fst snd firstn length Nat.eqb]. unfold at_. cbn [nth]. rewrite (proj2 (ceq_neq _ _) N2), (proj2 (ceq_neq _ _) N3). apply andb_false_r.
Qed.

(** The place is free for an address. *)
Definition before (bk : str) : Prop := bk = [] \/ exists w q, bk = w :: q /\ white w.

Lemma clip_all u p b : (exists q c, u = q ++ [c] /\ ~ stop c) -> Forall solid u -> Forall stop p -> closes b -> clip (u ++ p ++ b) = u.
Proof.
  intros (q & c & -> & N) F P C. unfold clip. assert (FP : Forall solid p). { rewrite Forall_forall in *. intros x I. specialize (P x I). destruct P as [<-|[<-|[<-|[<-|[]]]]]; apply solid_bool; reflexivity. }
  rewrite app_assoc, closes_word; [|apply Forall_app; auto|exact C]. cbn [fst]. rewrite <- app_assoc. cbn [app]. rewrite trim_keep; [|rewrite stop_bool in N; now destruct (punct c)]. rewrite trim_all; [reflexivity|]. rewrite Forall_forall in *. intros x I. apply stop_bool. auto.
Qed.

Definition unopened (bk : str) : Prop := match bk with d :: _ => ceq d "(" || ceq d "[" | [] => false end = false.
Lemma before_not bk : before bk -> unopened bk.
Proof. intros [->|(w & q & -> & W)]; [reflexivity|]. apply orb_false_intro; apply ceq_neq; intros ->; apply white_bool in W; discriminate W. Qed.

Lemma address_url bk u p b : S_Autolink.url u -> Forall stop p -> closes b -> unopened bk -> attr bk = false -> address bk (u ++ p ++ b) = Some (u, u).
Proof.
  intros (m & v & c & I & Q & F & N) P C Z A. assert (U : M_Autolink.url (u ++ p ++ b) = true) by (apply url_shape; exists m, ((v ++ [c]) ++ p ++ b); rewrite Q, <- !app_assoc; auto).
  assert (K : clip (u ++ p ++ b) = u) by (apply clip_all; [exists (m ++ v), c; rewrite Q, <- app_assoc; auto|exact F|exact P|exact C]). unfold address. rewrite U, A. fold (clip (u ++ p ++ b)). rewrite K.
  assert (H : exists d e, u = d :: e /\ (d = "h"%char \/ d = "m"%char)). { rewrite Q. destruct I as [<-|[<-|[<-|[]]]]; eexists; eexists; (split; [reflexivity|auto]). }
  destruct H as (d & e & Qu & D). unfold unopened in Z. rewrite Z. assert (L : (0 <? length u) = true) by (rewrite Qu; reflexivity). rewrite L. replace (at_ (u ++ p ++ b) 0) with d by (rewrite Qu; reflexivity). rewrite !andb_false_r. replace (isspace d) with false by (destruct D as [-> | ->]; reflexivity). replace (ceq d "#") with false by (destruct D as [-> | ->]; reflexivity).
  cbn [negb andb orb Nat.ltb Nat.leb]. destruct bk; reflexivity.
Qed.

Lemma url_step st bk u p b : calm st -> S_Autolink.url u -> Forall stop p -> closes b -> unopened bk -> attr bk = false -> exists c r, u ++ p ++ b = c :: r /\ (c = "h"%char \/ c = "m"%char) /\ act st bk c r = (st, Link (length u) u u).
Proof.
  intros C U P Cl Z A. pose proof (address_url bk u p b U P Cl Z A) as Ad. destruct U as (m & v & x & I & Q & _). assert (H : exists d e, u = d :: e /\ (d = "h"%char \/ d = "m"%char)) by (rewrite Q; destruct I as [<-|[<-|[<-|[]]]]; eexists; eexists; (split; [reflexivity|auto])).
  destruct H as (d & e & -> & D). exists d, (e ++ p ++ b). split; [reflexivity|]. split; [exact D|]. destruct C as [[A1 [A2 A3]] A4]. change (d :: e ++ p ++ b) with ((d :: e) ++ p ++ b) in *. unfold act. change (d :: e ++ p ++ b) with ((d :: e) ++ p ++ b). rewrite Ad, A1, A2, A3, A. cbn [app].
  rewrite line_first by (destruct D as [-> | ->]; discriminate). rewrite angle_none, comment_none by (destruct D as [-> | ->]; discriminate). rewrite brackets_off by (try exact A4; destruct D as [-> | ->]; discriminate). rewrite A4, andb_false_r. destruct D as [-> | ->]; reflexivity.
Qed.

Lemma goes_link st bk u h c r s st' o : u ++ s = c :: r -> act st bk c r = (st', Link (length u) u h) -> Goes st' (rev u ++ bk) s o -> Goes st bk (u ++ s) (link u h ++ o).
Proof.
  intros Q A G. rewrite Q. change (link u h ++ o) with (shown (Link (length u) u h) (c :: r) ++ o). apply (goes_on st bk c r st'); [exact A|]. cbn [size]. rewrite <- Q, firstn_app, skipn_app, firstn_all, skipn_all, Nat.sub_diag. cbn [firstn skipn]. rewrite app_nil_r. exact G.
Qed.

Lemma stops_run st p : calm st -> Forall stop p -> forall bk b o, closes b -> match bk with [] => False | x :: _ => x <> NL end -> Goes st (rev p ++ bk) b o -> Goes st bk (p ++ b) (p ++ o).
Proof.
  intros C P. induction P as [|c p S P IH]; intros bk b o Cl Z G; [exact G|]. cbn [app]. destruct bk as [|x bk]; [contradiction|]. assert (SC : c <> "{"%char /\ c <> "`"%char /\ c <> "<"%char /\ c <> "["%char /\ c <> "]"%char /\ c <> "h"%char /\ c <> "m"%char /\ c <> NL) by (destruct S as [<-|[<-|[<-|[<-|[]]]]]; repeat split; discriminate). destruct SC as (S1 & S2 & S3 & S4 & S5 & S6 & S7 & S8).
  apply (goes_one st (x :: bk) c (p ++ b) st).
  - apply plain_step; [exact (proj1 C)|exact S1|exact S2|exact S3|exact (line_away x bk _ Z)|apply brackets_off; [exact S4|exact S5|exact (proj2 C)]|]. right. right. split; [exact (url_first c _ S6 S7)|]. apply no_mail. intro I. change (c :: p ++ b) with ((c :: p) ++ b) in I. apply (word_in' (c :: p) b _ Cl) in I. assert (Q : stop "@") by (rewrite Forall_forall in P; destruct I as [<-|I]; [exact S|exact (P _ I)]). destruct Q as [Q|[Q|[Q|[Q|[]]]]]; discriminate Q.
  - apply IH; [exact Cl|exact S8|]. cbn [rev] in G. rewrite <- app_assoc in G. exact G.
Qed.

Lemma quiet_before a : open_end a -> before (rev a).
Proof. intros [->|(q & w & -> & W)]; [left; reflexivity|]. right. exists w, (rev q). rewrite rev_app_distr. auto. Qed.
Lemma quiet_attr a : quiet a -> attr (rev a) = false.
Proof. intro Q. apply attr_no. intro I. apply in_rev in I. destruct (quiet_in a _ Q I) as (_ & _ & _ & _ & H & _). now apply H. Qed.
Lemma last_solid_nl (u bk : str) : Forall solid u -> u <> [] -> match rev u ++ bk with [] => False | x :: _ => x <> NL end.
Proof.
  intros F N. destruct (last_cases u) as [->|(q & c & ->)]; [now destruct N|]. rewrite rev_app_distr. cbn [rev app]. apply Forall_app in F. destruct F as [_ F]. apply Forall_inv in F. intros ->. apply solid_bool in F. discriminate F.
Qed.

Lemma url_text st a bk u p b : calm st -> quiet a -> open_end a -> (a <> [] \/ before bk) -> ~ In "<"%char bk -> S_Autolink.url u -> Forall stop p -> closes b -> exists o, Goes st bk (a ++ u ++ p ++ b) (a ++ link u u ++ p ++ o).
Proof.
  intros C Q O Zb Nb U P Cl. destruct (goes_total st (rev p ++ rev u ++ rev a ++ bk) b) as (o & G). exists o.
  assert (Z : before (rev a ++ bk)). { destruct a as [|c a]; [destruct Zb as [Zb|Zb]; [now destruct Zb|exact Zb]|]. destruct (quiet_before _ O) as [E|(w & q & E & W)]; [apply (f_equal (@length ascii)) in E; rewrite rev_length in E; discriminate E|]. right. exists w, (q ++ bk). rewrite E. auto. }
  assert (A : attr (rev a ++ bk) = false). { apply attr_no. intro I. apply in_app_or in I as [I|I]; [|now apply Nb]. apply in_rev in I. destruct (quiet_in a _ Q I) as (_ & _ & _ & _ & H & _). now apply H. }
  destruct (url_step st (rev a ++ bk) u p b C U P Cl (before_not _ Z) A) as (c & r & E & D & T). assert (U' := U). destruct U' as (m & v & x & _ & Qu & F & _).
  assert (G1 : Goes st (rev a ++ bk) (u ++ p ++ b) (link u u ++ p ++ o)). { apply (goes_link st (rev a ++ bk) u u c r (p ++ b) st); [exact E|exact T|]. apply stops_run; [exact C|exact P|exact Cl| |exact G]. apply last_solid_nl; [exact F|]. intros ->. destruct m; [destruct v; discriminate Qu|discriminate Qu]. }
  rewrite E in *. apply quiet_run; [exact C|exact Q|exact O| |exact G1]. right. left. repeat split; destruct D as [-> | ->]; discriminate.
Qed.

(** ** Code *)
Definition in_code (st : auto) : Prop := a_code st = true \/ a_inline st = true.
Lemma code_run x : ~ In "`"%char x ->
  forall st bk t o, in_code st -> (t = [] \/ exists q, t = "`"%char :: q) -> Goes st bk (x ++ t) o -> exists o', o = x ++ o' /\ (t = [] -> o' = []).
Proof.
  remember (length x) as n eqn:En. revert x En. induction n as [n IH] using lt_wf_ind. intros x -> N1 st bk t o H T G. destruct x as [|c x]; [exists o; split; [reflexivity|]; intros ->; cbn [app] in G; now inversion G|]. cbn [app] in G. inversion G as [|? ? ? ? st' m ? A G']; subst.
  assert (M : in_code st' /\ copying m). {
    unfold act in A. destruct (negb (a_liquid st) && _ && _); [injection A as <- <-; split; [exact H|exact I]|]. destruct (a_liquid st); [destruct (ceq c "%" && _); injection A as <- <-; split; try exact H; exact I|]. destruct (line_move bk (c :: x ++ t)); [injection A as <- <-; split; [exact H|exact I]|].
    rewrite (proj2 (ceq_neq c "`")) in A by (intros ->; apply N1; left; reflexivity). replace (a_code st || a_inline st) with true in A by (destruct H as [-> | ->]; [reflexivity|symmetry; apply orb_true_r]). injection A as <- <-. split; [exact H|exact I]. }
  destruct M as [H' M]. pose proof (act_shape _ _ _ _ _ _ A) as [Z _]. assert (S : shown m (c :: x ++ t) = firstn (size m) (c :: x ++ t)) by (destruct m; [reflexivity|reflexivity|destruct M]). rewrite S.
  change (c :: x ++ t) with ((c :: x) ++ t) in *. remember (size m) as k eqn:Ek. clear Ek S A G M. destruct (Nat.le_gt_cases k (length (c :: x))) as [K|K].
  - rewrite skipn_app in G'. replace (k - length (c :: x)) with 0 in G' by lia. cbn [skipn] in G'. rewrite firstn_app. replace (k - length (c :: x)) with 0 by lia. change (firstn 0 t) with (@nil ascii). rewrite app_nil_r.
    destruct (IH (length (skipn k (c :: x)))) with (x := skipn k (c :: x)) (st := st') (bk := rev (firstn k ((c :: x) ++ t)) ++ bk) (t := t) (o := o0) as (o' & -> & W); [rewrite skipn_length; lia|reflexivity|intro I; apply N1; rewrite <- (firstn_skipn k (c :: x)); apply in_or_app; auto|exact H'|exact T|exact G'|].
    exists o'. split; [now rewrite app_assoc, firstn_skipn|exact W].
  - exists (firstn (k - length (c :: x)) t ++ o0). split; [rewrite firstn_app, firstn_all2 by lia; now rewrite <- app_assoc|]. intros ->. rewrite app_nil_r in Z. lia.
Qed.
