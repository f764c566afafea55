(** Lemmas for M_Autolink: links and tags. *)
From Verif Require Import Base BaseL L_Pass M_Relax M_Spans M_Autolink S_Autolink L_Autolink L_Autolink2 L_Autolink3 L_Autolink4.

Lemma copy_run st z : forall bk t o, (forall z1 c z2, z = z1 ++ c :: z2 -> act st (rev z1 ++ bk) c (z2 ++ t) = (st, Copy 1)) -> Goes st (rev z ++ bk) t o -> Goes st bk (z ++ t) (z ++ o).
Proof.
  induction z as [|c z IH]; intros bk t o H G; [exact G|]. cbn [app]. apply (goes_one st bk c (z ++ t) st); [exact (H [] c z eq_refl)|]. apply IH; [|cbn [rev] in G; rewrite <- app_assoc in G; exact G]. intros z1 d z2 ->. specialize (H (c :: z1) d z2 eq_refl). cbn [rev] in H. rewrite <- app_assoc in H. exact H.
Qed.
Lemma not_in_list (l : str) (c : ascii) : ~ In c l -> forall d, In d l -> c <> d.
Proof. intros N d I ->. contradiction. Qed.
Ltac inlist := cbn [B list_ascii_of_string app In]; repeat (try (left; reflexivity); right); fail.
Ltac apart H := apply (not_in_list _ _ H); inlist.

Lemma see_run w a t o : In (w, a) [(B "See ", 4); (B "Mail ", 5)] -> Goes fresh (rev w) ("["%char :: t) o -> Goes fresh [] (w ++ "["%char :: t) (w ++ o).
Proof.
  intros [H|[H|[]]] G; injection H as <- _; cbn [rev app B list_ascii_of_string] in *.
  - do 4 (eapply goes_one; [reflexivity|]). exact G.
  - do 5 (eapply goes_one; [reflexivity|]). exact G.
Qed.

Definition opened : auto := Auto false 0 false false false 1 0.
Definition inside : auto := Auto false 0 false false true 1 1.
Lemma head_line (z bk : str) s : match bk with [] => False | d :: _ => d <> NL end -> Forall (fun c => c <> NL) z -> line_move (rev z ++ bk) s = false.
Proof.
  intros H F. destruct (last_cases z) as [->|(q & c & ->)]; [destruct bk; [contradiction|now apply line_away]|]. rewrite rev_app_distr. cbn [rev app]. apply line_away. apply Forall_app in F as [_ F]. exact (Forall_inv F).
Qed.
Lemma forall_front {A} (P : A -> Prop) x c y : Forall P (x ++ c :: y) -> Forall P x /\ P c /\ Forall P y.
Proof. intro F. apply Forall_app in F as [F1 F2]. inversion F2; auto. Qed.
Lemma scheme_no d : In d (B "][()< =") \/ d = DQ -> forall m, In m schemes -> ~ In d m.
Proof.
  intros D m I K. assert (W : existsb (ceq d) (B "][()< =" ++ [DQ]) = true). { apply existsb_exists. exists d. split; [|apply ceq_refl]. apply in_or_app. destruct D as [D | ->]; [now left|right; now left]. }
  destruct I as [<-|[<-|[<-|[]]]]; cbn in K; repeat (destruct K as [<-|K]; [discriminate W|]); exact K.
Qed.

Lemma target_step bk c r : ~ In c (B "`[](){@" ++ [NL]) -> line_move bk (c :: r) = false -> act inside bk c r = (inside, Copy 1).
Proof.
  intros H L. unfold act. rewrite L. rewrite (proj2 (ceq_neq c "{")), (proj2 (ceq_neq c "`")) by apart H. unfold brackets. rewrite (proj2 (ceq_neq c "]")), (proj2 (ceq_neq c "(")), (proj2 (ceq_neq c ")")) by apart H. cbn [a_liquid a_code a_inline a_url inside negb andb orb]. rewrite andb_false_r. reflexivity.
Qed.
Lemma link_goes x v b bk o : calls x -> dest v -> closes b -> match bk with [] => False | d :: _ => d <> NL end ->
  Goes opened (rev (B "[" ++ x ++ B "](" ++ v ++ B ")") ++ bk) b o -> Goes fresh bk (B "[" ++ x ++ B "](" ++ v ++ B ")" ++ b) (B "[" ++ x ++ B "](" ++ v ++ B ")" ++ o).
Proof.
  intros (Fx & Sx) Fv C Z G. assert (At : ~ In "@"%char (x ++ B "](" ++ v ++ B ")")). { intro I. apply in_app_or in I as [I|I]; [rewrite Forall_forall in Fx; apply (Fx _ I); inlist|]. apply in_app_or in I as [I|I]; [cbn in I; destruct I as [I|[I|[]]]; discriminate I|]. apply in_app_or in I as [I|I]; [unfold dest in Fv; rewrite Forall_forall in Fv; apply (Fv _ I); inlist|]. destruct I as [I|[]]; discriminate I. }
  assert (Nx : Forall (fun c => c <> NL) x) by (eapply Forall_impl; [|exact Fx]; intros c H; apart H). assert (Nv : Forall (fun c => c <> NL) v) by (eapply Forall_impl; [|exact Fv]; intros c H; apart H).
  change (B "[" ++ x ++ B "](" ++ v ++ B ")" ++ b) with ("["%char :: x ++ "]"%char :: "("%char :: v ++ ")"%char :: b). change (B "[" ++ x ++ B "](" ++ v ++ B ")" ++ o) with ("["%char :: x ++ "]"%char :: "("%char :: v ++ ")"%char :: o).
  apply (goes_one fresh bk "[" (x ++ "]"%char :: "("%char :: v ++ ")"%char :: b) opened).
  { apply plain_step; [repeat split|discriminate|discriminate|discriminate| |reflexivity|]. { destruct bk as [|d bk]; [contradiction|]. now apply line_away. }
    right. right. split; [apply url_first; discriminate|]. apply no_mail. intro I. replace ("["%char :: x ++ "]"%char :: "("%char :: v ++ ")"%char :: b) with ((B "[" ++ x ++ B "](" ++ v ++ B ")") ++ b) in I by (cbn [app B list_ascii_of_string]; rewrite <- !app_assoc; cbn [app]; now rewrite <- !app_assoc). apply word_in' in I; [|exact C]. apply in_app_or in I as [I|I]; [destruct I as [I|[]]; discriminate I|contradiction]. }
  apply copy_run.
  { intros z1 c z2 E. pose proof Fx as Fx'. rewrite E in Fx'. apply forall_front in Fx' as (_ & Hc & _). pose proof Nx as Nx'. rewrite E in Nx'. apply forall_front in Nx' as (Nz1 & Nc & _). apply plain_step; [repeat split|apart Hc|apart Hc|apart Hc| |apply brackets_off; [apart Hc|apart Hc|reflexivity]|]. { apply head_line; [cbn; discriminate|exact Nz1]. }
    right. right. split.
    - change (c :: z2 ++ "]"%char :: "("%char :: v ++ ")"%char :: b) with ((c :: z2) ++ "]"%char :: "("%char :: v ++ ")"%char :: b). apply no_url2; [apply scheme_no; left; left; reflexivity|]. intros m I (f & g & Q). apply (Sx m I). rewrite E, Q. exists (z1 ++ f), g. now rewrite <- !app_assoc.
    - apply no_mail. intro I. replace (c :: z2 ++ "]"%char :: "("%char :: v ++ ")"%char :: b) with ((c :: z2 ++ B "](" ++ v ++ B ")") ++ b) in I by (cbn [app B list_ascii_of_string]; rewrite <- !app_assoc; cbn [app]; now rewrite <- !app_assoc). apply word_in' in I; [|exact C]. apply At. rewrite E, <- app_assoc. apply in_or_app. right. exact I. }
  replace ("]"%char :: "("%char :: v ++ ")"%char :: o) with (shown (Copy 2) ("]"%char :: "("%char :: v ++ ")"%char :: b) ++ (v ++ ")"%char :: o)) by reflexivity. eapply (goes_on opened _ "]" _ inside (Copy 2)).
  { unfold act. cbn [a_liquid opened ceq negb andb]. rewrite head_line; [|cbn; discriminate|exact Nx]. reflexivity. }
  cbn [size firstn skipn rev app]. apply copy_run.
  { intros z1 c z2 E. pose proof Fv as Fv'. unfold dest in Fv'. rewrite E in Fv'. apply forall_front in Fv' as (_ & Hc & _). pose proof Nv as Nv'. rewrite E in Nv'. apply forall_front in Nv' as (Nz1 & _). apply target_step; [exact Hc|]. apply head_line; [cbn; discriminate|exact Nz1]. }
  apply (goes_one inside _ ")" b opened).
  { apply plain_step; [repeat split|discriminate|discriminate|discriminate| |reflexivity|]. { apply head_line; [cbn; discriminate|exact Nv]. }
    right. right. split; [apply url_first; discriminate|]. apply no_mail. intro I. apply (word_in' [")"%char] b _ C) in I. destruct I as [I|[]]; discriminate I. }
  replace (rev (B "[" ++ x ++ B "](" ++ v ++ B ")") ++ bk) with (")"%char :: rev v ++ "("%char :: "]"%char :: rev x ++ "["%char :: bk) in G; [exact G|]. rewrite !rev_app_distr. cbn [rev app B list_ascii_of_string]. repeat (rewrite <- app_assoc; cbn [app]). reflexivity.
Qed.

(** ** Tags *)
Lemma attr_noeq i q : ~ In "<"%char i -> ~ In ">"%char i -> ~ In "="%char i -> attr (i ++ "<"%char :: q) = false.
Proof.
  intros N1 N2 N3. unfold attr. rewrite span_more by (rewrite Forall_forall; intros c I; rewrite !(proj2 (ceq_neq _ _)) by (intros ->; contradiction); reflexivity). cbn [span ceq negb andb]. change (negb (ceq "<" "<") && negb (ceq "<" ">")) with false. cbn [fst snd]. change (ceq (at_ ("<"%char :: q) 0) "<") with true. rewrite app_nil_r.
  rewrite <- (app_nil_r i) at 1. rewrite span_more by (rewrite Forall_forall; intros c I; rewrite (proj2 (ceq_neq _ _)) by (intros ->; contradiction); reflexivity). reflexivity.
Qed.
Lemma attr_in v i q : ~ In "<"%char i -> ~ In ">"%char i -> value v -> attr (rev v ++ DQ :: "="%char :: i ++ "<"%char :: q) = true.
Proof.
  intros N1 N2 V. assert (E : forall d, In d (B "`[]{<>=@" ++ [DQ; NL]) -> ~ In d (rev v)) by (intros d D I; apply in_rev in I; unfold value in V; rewrite Forall_forall in V; exact (V d I D)). unfold attr. change (rev v ++ DQ :: "="%char :: i ++ "<"%char :: q) with (rev v ++ [DQ; "="%char] ++ i ++ "<"%char :: q). rewrite !app_assoc. rewrite span_more.
  2:{ rewrite Forall_forall. intros c I. rewrite !(proj2 (ceq_neq _ _)); [reflexivity| |]; intros ->; apply in_app_or in I as [I|I]; try contradiction; apply in_app_or in I as [I|I]; try (destruct I as [I|[I|[]]]; discriminate I); (apply (E _) in I; [exact I|inlist]). }
  cbn [span]. change (negb (ceq "<" "<") && negb (ceq "<" ">")) with false. cbn [fst snd]. change (ceq (at_ ("<"%char :: q) 0) "<") with true. rewrite app_nil_r. cbv iota. rewrite <- app_assoc. change ([DQ; "="%char] ++ i) with ([DQ] ++ "="%char :: i). rewrite app_assoc, span_more.
  2:{ rewrite Forall_forall. intros c I. rewrite (proj2 (ceq_neq _ _)); [reflexivity|]. intros ->. apply in_app_or in I as [I|I]; [apply (E _) in I; [exact I|inlist]|destruct I as [I|[]]; discriminate I]. }
  cbn [span]. change (negb (ceq "=" "=")) with false. cbn [fst snd]. rewrite app_nil_r, rev_app_distr, rev_involutive. cbn [rev app span]. change (isspace DQ) with false. cbn [snd]. change (ceq DQ DQ || ceq DQ SQ) with true. cbv iota. destruct (existsb (ceq DQ) v) eqn:X; [|reflexivity]. exfalso. apply existsb_exists in X as (d & I & X). apply ceq_eq in X. subst d. apply in_rev in I. apply (E _) in I; [exact I|inlist].
Qed.
Lemma attr_fresh z bk : attr ("="%char :: z ++ "<"%char :: bk) = false.
Proof.
  unfold attr. cbn [span]. change (negb (ceq "=" "<") && negb (ceq "=" ">")) with true. cbv iota. destruct (span (fun c => negb (ceq c "<") && negb (ceq c ">")) (z ++ "<"%char :: bk)) as [i r]. destruct (ceq (at_ r 0) "<"); reflexivity.
Qed.

Lemma open_step st bk r : calm st -> starts (B "http://") r = false -> starts (B "https://") r = false -> starts (B "mailto:") r = false -> starts (B "!--") r = false -> act st bk "<" r = (st, Copy 1).
Proof.
  intros ((A1 & A2 & A3) & A4) H1 H2 H3 H4. unfold act. rewrite A1, A2, A3, line_first by discriminate. rewrite brackets_off by (discriminate || exact A4). rewrite A4. cbn [angle]. change (ceq "<" "<") with true. rewrite H1, H2, H3, !andb_false_r. replace (comment ("<"%char :: r)) with (@None nat) by (unfold comment; change (B "<!--") with ("<"%char :: B "!--"); cbn [starts]; change (ceq "<" "<") with true; rewrite H4; reflexivity).
  rewrite (address_none bk ("<"%char :: r)); [|apply url_first; discriminate|apply no_mail; intros []]. cbn [negb andb orb]. destruct (strchr ">" r); rewrite ?andb_false_r; reflexivity.
Qed.
Lemma ident_apart n c : Forall alnum n -> In c n -> forall d, isalnum d = false -> c <> d.
Proof. intros F I d D ->. rewrite Forall_forall in F. specialize (F d I). apply alnum_bool in F. congruence. Qed.
Lemma ident_no n d : Forall alnum n -> isalnum d = false -> ~ In d n.
Proof. intros F D I. exact (ident_apart n d F I d D eq_refl). Qed.
Lemma scheme_colon m : In m schemes -> In ":"%char m.
Proof. intros [<-|[<-|[<-|[]]]]; inlist. Qed.
Lemma ident_url n d r : Forall alnum n -> d = SP \/ d = "="%char -> M_Autolink.url (n ++ d :: r) = false.
Proof.
  intros F D. apply no_url2; [apply scheme_no; left; destruct D as [-> | ->]; inlist|]. intros m I (x & y & Q). apply (ident_no n ":" F eq_refl). rewrite Q. apply in_or_app. right. apply in_or_app. left. now apply scheme_colon.
Qed.
Lemma ident_starts n d r m : Forall alnum n -> d = SP -> n <> [] -> In m [B "http://"; B "https://"; B "mailto:"; B "!--"] -> starts m (n ++ d :: r) = false.
Proof.
  intros F -> N I. destruct (starts m (n ++ SP :: r)) eqn:E; [|reflexivity]. exfalso. destruct I as [<-|[<-|[<-|[<-|[]]]]].
  4:{ destruct n as [|c n]; [now destruct N|]. apply starts_spec in E as (q & E). injection E as -> _. apply Forall_inv in F. apply alnum_bool in F. discriminate F. }
  all: assert (U : M_Autolink.url (n ++ SP :: r) = true) by (unfold M_Autolink.url; rewrite E; rewrite ?orb_true_r; reflexivity); rewrite (ident_url n SP r F (or_introl eq_refl)) in U; discriminate U.
Qed.
Lemma split_in {A} (z1 : list A) c z2 z : z = z1 ++ c :: z2 -> In c z /\ (forall d, In d z1 -> In d z) /\ (forall d, In d z2 -> In d z).
Proof. intros ->. split; [apply in_or_app; right; left; reflexivity|]. split; intros d I; apply in_or_app; [left|right; right]; exact I. Qed.

(** The tag up to its attribute *)
Lemma tag_open n t o bk : ident n -> Goes fresh (SP :: rev n ++ "<"%char :: bk) t o -> Goes fresh bk ("<"%char :: n ++ SP :: t) ("<"%char :: n ++ SP :: o).
Proof.
  intros (N & F) G. apply (goes_one fresh bk "<" (n ++ SP :: t) fresh).
  { apply open_step; [repeat split| | | |]; apply ident_starts; auto; cbn; auto. }
  apply copy_run.
  { intros z1 c z2 E. destruct (split_in _ _ _ _ E) as (Ic & I1 & I2). pose proof (ident_apart n c F Ic) as NC. apply plain_step; [repeat split|apply NC; reflexivity|apply NC; reflexivity|apply NC; reflexivity|apply line_first; apply NC; reflexivity|apply brackets_off; [apply NC; reflexivity|apply NC; reflexivity|reflexivity]|].
    right. right. change (c :: z2 ++ SP :: t) with ((c :: z2) ++ SP :: t). assert (F2 : Forall alnum (c :: z2)) by (rewrite E in F; apply Forall_app in F; apply F). split; [apply ident_url; [exact F2|now left]|]. apply no_mail. intro I. apply word_in in I; [|reflexivity]. exact (ident_no _ "@" F2 eq_refl I). }
  apply (goes_one fresh _ SP t fresh); [|exact G]. apply plain_step; [repeat split|discriminate|discriminate|discriminate| |reflexivity|].
  { apply head_line; [cbn; discriminate|]. eapply Forall_impl; [|exact F]. intros c H ->. apply alnum_bool in H. discriminate H. }
  right. right. split; [apply url_first; discriminate|]. apply no_mail. intros [].
Qed.
(** The name of the attribute and the quote *)
Lemma key_run k w t o bk : ident k -> match bk with [] => False | d :: _ => d <> NL end -> ~ In "@"%char (k ++ "="%char :: DQ :: w) -> closes t -> Goes fresh (DQ :: "="%char :: rev k ++ bk) (w ++ t) o -> Goes fresh bk (k ++ "="%char :: DQ :: w ++ t) (k ++ "="%char :: DQ :: o).
Proof.
  intros (N & F) Z At C G. assert (NL_ : Forall (fun c => c <> NL) k) by (eapply Forall_impl; [|exact F]; intros c H ->; apply alnum_bool in H; discriminate H). apply copy_run.
  { intros z1 c z2 E. destruct (split_in _ _ _ _ E) as (Ic & I1 & I2). pose proof (ident_apart k c F Ic) as NC. apply plain_step; [repeat split|apply NC; reflexivity|apply NC; reflexivity|apply NC; reflexivity|apply line_first; apply NC; reflexivity|apply brackets_off; [apply NC; reflexivity|apply NC; reflexivity|reflexivity]|].
    right. right. assert (F2 : Forall alnum (c :: z2)) by (rewrite E in F; apply Forall_app in F; apply F). split; [exact (ident_url (c :: z2) "=" _ F2 (or_intror eq_refl))|]. apply no_mail. intro I. replace (c :: z2 ++ "="%char :: DQ :: w ++ t) with ((c :: z2 ++ "="%char :: DQ :: w) ++ t) in I by (cbn [app]; rewrite <- app_assoc; reflexivity). apply word_in' in I; [|exact C]. apply At. rewrite E, <- app_assoc. apply in_or_app. right. exact I. }
  assert (At2 : ~ In "@"%char w) by (intro I; apply At; apply in_or_app; right; right; right; exact I).
  apply (goes_one fresh _ "=" (DQ :: w ++ t) fresh).
  { apply plain_step; [repeat split|discriminate|discriminate|discriminate|now apply head_line|reflexivity|]. right. right. split; [apply url_first; discriminate|]. apply no_mail. intro I. change ("="%char :: DQ :: w ++ t) with (("="%char :: DQ :: w) ++ t) in I. apply word_in' in I; [|exact C]. destruct I as [I|[I|I]]; [discriminate I|discriminate I|contradiction]. }
  apply (goes_one fresh _ DQ (w ++ t) fresh); [|exact G].
  apply plain_step; [repeat split|discriminate|discriminate|discriminate|apply line_away; discriminate|reflexivity|]. right. right. split; [apply url_first; discriminate|]. apply no_mail. intro I. change (DQ :: w ++ t) with ((DQ :: w) ++ t) in I. apply word_in' in I; [|exact C]. destruct I as [I|I]; [discriminate I|contradiction].
Qed.
(** The value *)
Lemma value_run v w t o i q : value v -> ~ In "<"%char i -> ~ In ">"%char i -> ~ In "@"%char w -> closes t -> Goes fresh (rev v ++ DQ :: "="%char :: i ++ "<"%char :: q) (w ++ t) o -> Goes fresh (DQ :: "="%char :: i ++ "<"%char :: q) (v ++ w ++ t) (v ++ o).
Proof.
  intros V N1 N2 At C G. apply copy_run; [|exact G]. intros z1 c z2 E. destruct (split_in _ _ _ _ E) as (Ic & I1 & I2). pose proof V as V'. unfold value in V'. rewrite E in V'. apply forall_front in V' as (V1 & Hc & V2). apply plain_step; [repeat split|apart Hc|apart Hc|apart Hc| |apply brackets_off; [apart Hc|apart Hc|reflexivity]|].
  { apply head_line; [cbn; discriminate|]. eapply Forall_impl; [|exact V1]. intros d H. apart H. }
  destruct (ceq c "h" || ceq c "m") eqn:HM; [right; left; cbn [andb]; now apply attr_in|]. apply orb_false_iff in HM as [HM1 HM2]. right. right. split; [apply url_first; now apply ceq_neq|]. apply no_mail. intro I. change (c :: z2 ++ w ++ t) with ((c :: z2) ++ w ++ t) in I. rewrite app_assoc in I. apply word_in' in I; [|exact C]. apply in_app_or in I as [I|I]; [|contradiction]. unfold value in V. rewrite Forall_forall in V. apply (V "@"%char); [destruct I as [<-|I]; auto|inlist].
Qed.
