(** Lemmas for M_Autolink: texts of known shape. *)
From Verif Require Import Base BaseL L_Pass M_Relax M_Spans M_Autolink S_Autolink L_Autolink.

Definition awake (st : auto) : Prop := a_code st = false /\ a_inline st = false /\ a_liquid st = false.
Definition calm (st : auto) : Prop := awake st /\ a_url st = false.

Lemma goes_one st bk c r st' o : act st bk c r = (st', Copy 1) -> Goes st' (c :: bk) r o -> Goes st bk (c :: r) (c :: o).
Proof. intros A G. change (c :: o) with (shown (Copy 1) (c :: r) ++ o). now apply (goes_on st bk c r st'). Qed.

Lemma address_none bk s : M_Autolink.url s = false -> email bk s = false -> address bk s = None.
Proof. intros U E. unfold address. rewrite U, E. now rewrite !andb_false_r. Qed.
Lemma angle_none c r : c <> "<"%char -> angle (c :: r) = None.
Proof. intro N. cbn [angle]. now rewrite (proj2 (ceq_neq c "<") N). Qed.
Lemma comment_none c r : c <> "<"%char -> comment (c :: r) = None.
Proof. intro N. unfold comment. destruct (starts (B "<!--") (c :: r)) eqn:E; [|reflexivity]. apply starts_spec in E as (q & E). injection E as E _. contradiction. Qed.

Lemma plain_step st bk c r st1 : awake st -> c <> "{"%char -> c <> "`"%char -> c <> "<"%char -> line_move bk (c :: r) = false -> brackets st c (at_ r 0) = (st1, false) -> (a_url st1 = true \/ (ceq c "h" || ceq c "m") && attr bk = true \/ M_Autolink.url (c :: r) = false /\ email bk (c :: r) = false) -> act st bk c r = (st1, Copy 1).
Proof.
  intros (A1 & A2 & A3) N1 N2 N3 L Br H. unfold act. rewrite A1, A2, A3, L, Br, (proj2 (ceq_neq c "{") N1), (proj2 (ceq_neq c "`") N2), (angle_none c r N3), (comment_none c r N3). cbn [negb andb orb]. destruct (a_url st1); [reflexivity|]. destruct (_ && attr bk); [reflexivity|]. destruct H as [H|[H|[U E]]]; [discriminate H|discriminate H|]. now rewrite (address_none bk (c :: r) U E).
Qed.

(** ** Where spans stop *)
Lemma span_edge f (a : str) d t : f d = false -> exists g e, a = g ++ e /\ Forall (fun c => f c = true) g /\ span f (a ++ d :: t) = (g, e ++ d :: t) /\ match e with [] => True | x :: _ => f x = false end.
Proof.
  intro D. induction a as [|c a (g & e & -> & F & S & H)]; [exists [], []; cbn; rewrite D; auto|]. cbn [app span]. destruct (f c) eqn:C.
  - exists (c :: g), e. rewrite S. auto.
  - exists [], (c :: g ++ e). auto.
Qed.
Lemma word_in (a : str) d t x : word d = false -> In x (fst (span word (a ++ d :: t))) -> In x a.
Proof. intros D I. destruct (span_edge word a d t D) as (g & e & -> & _ & S & _). rewrite S in I. apply in_or_app. auto. Qed.
Lemma closes_word a b : Forall solid a -> closes b -> span word (a ++ b) = (a, b).
Proof.
  intros F C. rewrite span_more by (now apply solids). destruct b as [|c b]; [cbn; now rewrite app_nil_r|]. cbn [closes] in C. cbn [span]. rewrite solid_bool in C. destruct (word c); [congruence|]. cbn. now rewrite app_nil_r.
Qed.
Lemma word_in' (a b : str) x : closes b -> In x (fst (span word (a ++ b))) -> In x a.
Proof.
  intros C. destruct b as [|d t]; [rewrite app_nil_r; destruct (span_shape word a) as (_ & _ & Q); intro I; rewrite Q; apply in_or_app; auto|]. apply word_in. cbn [closes] in C. rewrite solid_bool in C. destruct (word d); congruence.
Qed.
Lemma no_mail bk s : ~ In "@"%char (fst (span word s)) -> email bk s = false.
Proof. intro N. destruct (email bk s) eqn:E; [|reflexivity]. destruct (N (email_at bk s E)). Qed.
Lemma no_edge d bk s : ~ white d -> d <> "("%char -> d <> "["%char -> email (d :: bk) s = false.
Proof. intros W N1 N2. unfold email. rewrite (proj1 (white_false d) W), (proj2 (ceq_neq _ _) N1), (proj2 (ceq_neq _ _) N2). reflexivity. Qed.
Lemma scheme_solid m : In m schemes -> Forall solid m /\ m <> [].
Proof. intros [<-|[<-|[<-|[]]]]; (split; [apply solids; repeat constructor|discriminate]). Qed.
Lemma no_url a d t : ~ solid d -> (forall m, In m schemes -> ~ within m a) -> M_Autolink.url (a ++ d :: t) = false.
Proof.
  intros D N. destruct (M_Autolink.url (a ++ d :: t)) eqn:E; [|reflexivity]. exfalso. apply url_shape in E as (m & r & I & E). destruct (Nat.le_gt_cases (length m) (length a)) as [L|L].
  - destruct (app_split a (d :: t) m r E L) as (e & -> & _). apply (N m I). exists [], e. reflexivity.
  - destruct (app_split m r a (d :: t)) as (e & Q & Q2); [now symmetry|lia|]. destruct e as [|x e]; [rewrite app_nil_r in Q; rewrite Q in L; lia|]. injection Q2 as <- _. destruct (scheme_solid m I) as [F _]. rewrite Q in F. apply Forall_app in F. destruct F as [_ F]. apply Forall_inv in F. contradiction.
Qed.
Lemma no_url2 a d t : (forall m, In m schemes -> ~ In d m) -> (forall m, In m schemes -> ~ within m a) -> M_Autolink.url (a ++ d :: t) = false.
Proof.
  intros D N. destruct (M_Autolink.url (a ++ d :: t)) eqn:E; [|reflexivity]. exfalso. apply url_shape in E as (m & r & I & E). destruct (Nat.le_gt_cases (length m) (length a)) as [L|L].
  - destruct (app_split a (d :: t) m r E L) as (e & -> & _). apply (N m I). exists [], e. reflexivity.
  - destruct (app_split m r a (d :: t)) as (e & Q & Q2); [now symmetry|lia|]. destruct e as [|x e]; [rewrite app_nil_r in Q; rewrite Q in L; lia|]. injection Q2 as <- _. apply (D m I). rewrite Q. apply in_or_app. right. left. reflexivity.
Qed.
Lemma url_first c r : c <> "h"%char -> c <> "m"%char -> M_Autolink.url (c :: r) = false.
Proof. intros N1 N2. destruct (M_Autolink.url (c :: r)) eqn:E; [|reflexivity]. apply url_shape in E as (m & q & [<-|[<-|[<-|[]]]] & E); injection E as E _; contradiction. Qed.

(** ** Quiet text *)
Lemma quiet_tail c a : quiet (c :: a) -> quiet a.
Proof.
  intros (F & N & M). split; [now inversion F|]. split; [intros (x & y & ->); apply N; exists (c :: x), y; reflexivity|]. intros m I (x & y & ->). apply (M m I). exists (c :: x), y. reflexivity.
Qed.
Lemma open_tail c a : open_end (c :: a) -> open_end a.
Proof. intros [H|(q & w & H & W)]; [discriminate H|]. destruct q as [|x q]; [injection H as _ ->; now left|]. injection H as _ ->. right. exists q, w. auto. Qed.
Lemma quiet_in a c : quiet a -> In c a -> c <> "`"%char /\ c <> "["%char /\ c <> "]"%char /\ c <> "{"%char /\ c <> "<"%char /\ c <> "@"%char /\ c <> TAB.
Proof.
  intros (F & _ & _) I. rewrite Forall_forall in F. specialize (F c I). cbn [B list_ascii_of_string app In] in F. repeat split; intros ->; apply F; repeat (try (left; reflexivity); right); fail.
Qed.
Lemma quiet_line bk a d t : quiet a -> d <> SP -> d <> TAB -> d <> "["%char -> line_move bk (a ++ d :: t) = false.
Proof.
  intros Q D1 D2 D3. unfold line_move. apply andb_false_intro2. apply orb_false_intro.
  - unfold indented. destruct (span_edge (is SP) a d t) as (g & e & -> & F & S & H); [unfold is; now apply ceq_neq|]. rewrite S. cbn [fst]. assert (Lg : length g < 4).
    { destruct (Nat.lt_ge_cases (length g) 4) as [L|L]; [exact L|]. exfalso. destruct Q as (_ & N & _). apply N. exists [], (skipn 4 g ++ e). destruct g as [|g1 [|g2 [|g3 [|g4 g]]]]; try (cbn in L; lia). inversion F as [|? ? E1 F1]; subst. inversion F1 as [|? ? E2 F2]; subst. inversion F2 as [|? ? E3 F3]; subst. inversion F3 as [|? ? E4 F4]; subst. unfold is in E1, E2, E3, E4. apply ceq_eq in E1, E2, E3, E4. subst. reflexivity. }
    rewrite firstn_all2 by lia. apply orb_false_intro; [apply Nat.eqb_neq; lia|]. unfold at_. rewrite <- app_assoc, app_nth2, Nat.sub_diag by lia. destruct e as [|x e]; cbn [app nth]; [now apply ceq_neq|]. apply ceq_neq. apply (quiet_in _ x Q). apply in_or_app. cbn. auto.
  - unfold definition. destruct (span_edge gap a d t) as (g & e & Qe & F & S & H); [unfold gap; now rewrite (proj2 (ceq_neq _ _) D1), (proj2 (ceq_neq _ _) D2)|]. rewrite S. cbn [snd]. destruct e as [|x e]; cbn [app].
    + now rewrite (proj2 (ceq_neq _ _) D3).
    + replace (ceq x "[") with false; [reflexivity|]. symmetry. apply ceq_neq. apply (quiet_in a x Q). rewrite Qe. apply in_or_app. cbn. auto.
Qed.
Lemma quiet_front q e : quiet (q ++ e) -> quiet q.
Proof.
  intros (F & N & M). split; [apply Forall_app in F; apply F|]. split; [intros (x & y & ->); apply N; exists x, (y ++ e); now rewrite <- !app_assoc|]. intros m I (x & y & ->). apply (M m I). exists x, (y ++ e). now rewrite <- !app_assoc.
Qed.
Definition settled (a : str) (d : ascii) : Prop := d <> SP /\ d <> TAB /\ d <> "["%char \/ exists q, a = q ++ [NL].
Lemma quiet_line2 bk a d t : quiet a -> settled a d -> line_move bk (a ++ d :: t) = false.
Proof.
  intros Q [(D1 & D2 & D3)|(q & ->)]; [now apply quiet_line|]. rewrite <- app_assoc. cbn [app]. apply quiet_line; [exact (quiet_front q [NL] Q)|discriminate|discriminate|discriminate].
Qed.
Lemma brackets_off st c d : c <> "["%char -> c <> "]"%char -> a_url st = false -> brackets st c d = (st, false).
Proof. intros N1 N2 U. unfold brackets. rewrite (proj2 (ceq_neq _ _) N1), (proj2 (ceq_neq _ _) N2), U. cbn [andb]. now rewrite !andb_false_r. Qed.

Lemma white_solid w : white w -> ~ solid w.
Proof. intros W [N _]. contradiction. Qed.
Lemma quiet_run st a : calm st -> quiet a -> open_end a -> forall bk d t o, a = [] \/ settled a d -> Goes st (rev a ++ bk) (d :: t) o -> Goes st bk (a ++ d :: t) (a ++ o).
Proof.
  intros C. induction a as [|c a IH]; intros Q O bk d t o [D3|D3] G; [exact G|exact G|discriminate D3|]. destruct O as [O|(q & w & O & W)]; [discriminate O|]. cbn [app].
  destruct (quiet_in _ c Q (or_introl eq_refl)) as (N1 & N2 & N3 & N4 & N5 & N6 & N7). apply (goes_one st bk c (a ++ d :: t) st).
  - apply plain_step; [exact (proj1 C)|exact N4|exact N1|exact N5|exact (quiet_line2 bk (c :: a) d t Q D3)|apply brackets_off; [exact N2|exact N3|exact (proj2 C)]|]. right. right. change (c :: a ++ d :: t) with ((c :: a) ++ d :: t). rewrite O, <- app_assoc. cbn [app]. split.
    + apply no_url; [exact (white_solid w W)|]. intros m I (x & y & ->). destruct Q as (_ & _ & M). apply (M m I). rewrite O. exists x, (y ++ [w]). now rewrite <- !app_assoc.
    + apply no_mail. intro I. apply word_in in I; [|unfold word; now rewrite (proj1 (white_bool w) W)]. assert (J : In "@"%char (c :: a)) by (rewrite O; apply in_or_app; auto). destruct (quiet_in _ _ Q J) as (_ & _ & _ & _ & _ & J6 & _). now apply J6.
  - apply IH; [exact (quiet_tail c a Q)|apply (open_tail c); right; exists q, w; auto| |cbn [rev] in G; rewrite <- app_assoc in G; exact G].
    destruct D3 as [D3|(z & D3)]; [right; now left|]. destruct z as [|z0 z]; [injection D3 as _ ->; now left|]. injection D3 as _ D3. right. right. now exists z.
Qed.
