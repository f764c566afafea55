(** Lemmas for M_Autolink: e-mail addresses, links, tags and definitions. *)
From Verif Require Import Base BaseL L_Pass M_Relax M_Spans M_Autolink S_Autolink L_Autolink L_Autolink2 L_Autolink3.

Definition token (u : str) : Prop := exists x d h e y c, u = x ++ d :: "@"%char :: h ++ "."%char :: e :: y /\ Forall solid u /\ alnum d /\ ~ In "@"%char x
  /\ Forall (fun c => alnum c \/ c = "-"%char \/ c = "_"%char) h /\ alnum e /\ (exists q, u = q ++ [c]) /\ ~ stop c /\ forall m r, In m schemes -> u <> m ++ r.
Lemma mail_token u : mail u -> token u.
Proof. intros (x & d & h & e & y & c & Q & F & D & N & _ & H). exists x, d, h, e, y, c. tauto. Qed.

Lemma no_at_span (x r : str) : ~ In "@"%char x -> span (fun c => negb (ceq c "@")) (x ++ "@"%char :: r) = (x, "@"%char :: r).
Proof. intro N. rewrite span_more; [cbn; now rewrite app_nil_r|]. rewrite Forall_forall. intros c I. rewrite (proj2 (ceq_neq _ _)); [reflexivity|]. intros ->. contradiction. Qed.

Lemma token_url u s : token u -> M_Autolink.url (u ++ s) = false.
Proof.
  intros (x & d & h & e & y & c & Q & F & D & N & Hh & E & _ & _ & M). destruct (M_Autolink.url (u ++ s)) eqn:U; [|reflexivity]. exfalso. apply url_shape in U as (m & r & I & U). destruct (Nat.le_gt_cases (length m) (length u)) as [L|L].
  - destruct (app_split u s m r U L) as (z & Z & _). exact (M m z I Z).
  - destruct (app_split m r u s) as (z & Z & _); [now symmetry|lia|]. assert (K : In "@"%char m) by (rewrite Z, Q; apply in_or_app; left; apply in_or_app; right; right; left; reflexivity). destruct I as [<-|[<-|[<-|[]]]]; cbn in K; repeat (destruct K as [K|K]; [discriminate K|]); exact K.
Qed.

Lemma stops_solid p : Forall stop p -> Forall solid p.
Proof. intro P. rewrite Forall_forall in *. intros x I. specialize (P x I). destruct P as [<-|[<-|[<-|[<-|[]]]]]; apply solid_bool; reflexivity. Qed.

Lemma email_token bk u p b : token u -> Forall stop p -> closes b -> before bk -> email bk (u ++ p ++ b) = true.
Proof.
  intros (x & d & h & e & y & c & Q & F & D & N & Hh & E & _ & _ & M) P C Z. unfold email. rewrite app_assoc, closes_word by (first [exact C|apply Forall_app; split; [exact F|now apply stops_solid]]). cbn [fst].
  replace (match bk with [] => true | d0 :: _ => isspace d0 || ceq d0 "(" || ceq d0 "[" end) with true by (destruct Z as [->|(w & q & -> & W)]; [reflexivity|]; apply white_bool in W; now rewrite W).
  replace (ceq (at_ bk 0) "[") with false by (destruct Z as [->|(w & q & -> & W)]; [reflexivity|]; symmetry; apply ceq_neq; intros G; cbn in G; subst w; apply white_bool in W; discriminate W). cbn [andb negb].
  rewrite Q. replace ((x ++ d :: "@"%char :: h ++ "."%char :: e :: y) ++ p) with ((x ++ [d]) ++ "@"%char :: (h ++ "."%char :: e :: (y ++ p))) by (rewrite <- !app_assoc; cbn [app]; now rewrite <- !app_assoc). apply alnum_bool in D as D'. rewrite no_at_span.
  2:{ intro I. apply in_app_or in I as [I|[I|[]]]; [contradiction|]. subst d. discriminate D'. }
  rewrite rev_app_distr. cbn [rev app]. rewrite D'. rewrite (proj2 (ceq_neq d "[")) by (intros ->; discriminate D'). cbn [negb andb]. assert (T : tld (h ++ "."%char :: e :: (y ++ p)) = true). { apply tld_of; [|now apply alnum_bool]. rewrite Forall_forall in *. intros z I. destruct (Hh z I) as [A|[-> | ->]]; [apply alnum_bool in A; now rewrite A|reflexivity|reflexivity]. }
  destruct h as [|h0 h]; exact T.
Qed.

Lemma address_token bk c r u p b : u ++ p ++ b = c :: r -> c <> "#"%char -> token u -> Forall stop p -> closes b -> before bk -> attr bk = false -> address bk (u ++ p ++ b) = Some (u, B "mailto:" ++ u).
Proof.
  intros Q0 Nc T P C Z A. pose proof (email_token bk u p b T P C Z) as Em. assert (U : M_Autolink.url (u ++ p ++ b) = false) by (now apply token_url).
  destruct T as (x & d & h & e & y & k & Q & F & D & N & Hh & E & (q & Lq) & Ns & M). assert (K : clip (u ++ p ++ b) = u) by (apply clip_all; [now exists q, k|exact F|exact P|exact C]). assert (Nz : u <> []) by (rewrite Lq; now destruct q).
  unfold address. rewrite U, A, Em. fold (clip (u ++ p ++ b)). pose proof (before_not bk Z) as Z'; unfold unopened in Z'; rewrite K, Z'. replace (at_ (u ++ p ++ b) 0) with c by (rewrite Q0; reflexivity). rewrite (proj2 (ceq_neq _ _) Nc).
  assert (S : isspace c = false). { destruct u as [|u0 u]; [now destruct Nz|]. injection Q0 as <- _. apply Forall_inv in F. apply solid_bool in F. unfold word in F. now destruct (isspace u0). }
  rewrite S. assert (L : (0 <? length u) = true) by (destruct u; [now destruct Nz|reflexivity]). rewrite L. rewrite !andb_false_r. assert (Mt : starts (B "mailto:") u = false) by (destruct (starts (B "mailto:") u) eqn:G; [|reflexivity]; apply starts_spec in G as (z & G); destruct (M (B "mailto:") z); [right; right; left; reflexivity|exact G]). rewrite Mt. cbn [negb andb orb]. rewrite andb_false_r. cbn [negb]. destruct bk; reflexivity.
Qed.

Lemma token_step st bk c r u p b : calm st -> u ++ p ++ b = c :: r -> c <> "#"%char -> c <> "`"%char -> c <> "{"%char -> c <> "]"%char -> line_move bk (c :: r) = false -> token u -> Forall stop p -> closes b -> before bk -> attr bk = false ->
  act st bk c r = (fst (brackets st c (at_ r 0)), Link (length u) u (B "mailto:" ++ u)).
Proof.
  intros ((A1 & A2 & A3) & A4) Q N1 N2 N3 N4 L T P C Z A. pose proof (address_token bk c r u p b Q N1 T P C Z A) as Ad. rewrite Q in Ad. assert (N5 : c <> "<"%char). { destruct T as (x & d & h & e & y & k & _ & F & _ & _ & _ & _ & (q & Lq) & _). destruct u as [|u0 u]; [destruct q; discriminate Lq|]. injection Q as <- _. apply Forall_inv in F. apply F. }
  unfold act. rewrite A1, A2, A3, L, (proj2 (ceq_neq _ _) N2), (proj2 (ceq_neq _ _) N3), Ad, A, (angle_none c r N5), (comment_none c r N5), !andb_false_r. cbn [negb andb orb]. unfold brackets. rewrite A4, (proj2 (ceq_neq _ _) N4), !andb_false_r. cbn [andb negb]. rewrite andb_true_r. destruct (ceq c "["); cbn [fst a_url set_brackets]; rewrite ?A4; reflexivity.
Qed.

Lemma mail_text st a bk u p b : calm st -> quiet a -> open_end a -> (a <> [] \/ before bk) -> ~ In "<"%char bk -> mail u -> Forall stop p -> closes b -> exists o, Goes st bk (a ++ u ++ p ++ b) (a ++ link u (B "mailto:" ++ u) ++ p ++ o).
Proof.
  intros C Q O Zb Nb U P Cl. destruct (goes_total st (rev p ++ rev u ++ rev a ++ bk) b) as (o & G). exists o.
  assert (Z : before (rev a ++ bk)). { destruct a as [|c a]; [destruct Zb as [Zb|Zb]; [now destruct Zb|exact Zb]|]. destruct (quiet_before _ O) as [E|(w & q & E & W)]; [apply (f_equal (@length ascii)) in E; rewrite rev_length in E; discriminate E|]. right. exists w, (q ++ bk). rewrite E. auto. }
  assert (A : attr (rev a ++ bk) = false). { apply attr_no. intro I. apply in_app_or in I as [I|I]; [|now apply Nb]. apply in_rev in I. destruct (quiet_in a _ Q I) as (_ & _ & _ & _ & H & _). now apply H. }
  pose proof (mail_token u U) as T. assert (H : exists c r, u = c :: r /\ alnum c). { destruct U as (x & d & h & e & y & k & Q1 & _ & _ & _ & (f & z & Q2 & Ff) & _). exists f, (z ++ "@"%char :: h ++ "."%char :: e :: y). split; [|exact Ff]. change (d :: "@"%char :: h ++ "."%char :: e :: y) with ([d] ++ "@"%char :: h ++ "."%char :: e :: y) in Q1. rewrite app_assoc, Q2 in Q1. exact Q1. }
  destruct H as (c & r & -> & Hc). apply alnum_bool in Hc. assert (NC : forall k, isalnum k = false -> c <> k) by (intros k K ->; congruence).
  assert (S : act st (rev a ++ bk) c (r ++ p ++ b) = (st, Link (length (c :: r)) (c :: r) (B "mailto:" ++ c :: r))). { rewrite (token_step st (rev a ++ bk) c (r ++ p ++ b) (c :: r) p b C); try (apply NC; reflexivity); [|reflexivity|apply line_first; apply NC; reflexivity|exact T|exact P|exact Cl|exact Z|exact A]. rewrite brackets_off; [reflexivity|apply NC; reflexivity|apply NC; reflexivity|exact (proj2 C)]. }
  assert (F : Forall solid (c :: r)) by (destruct T as (? & ? & ? & ? & ? & ? & _ & F & _); exact F).
  apply (quiet_run st a C Q O bk c (r ++ p ++ b)); [right; left; repeat split; apply NC; reflexivity|].
  change (c :: r ++ p ++ b) with ((c :: r) ++ p ++ b). apply (goes_link st (rev a ++ bk) (c :: r) _ c (r ++ p ++ b) (p ++ b) st); [reflexivity|exact S|]. apply stops_run; [exact C|exact P|exact Cl|apply last_solid_nl; [exact F|discriminate]|exact G].
Qed.

(** ** Definitions and indented lines *)
Lemma line_goes st bk l t o : awake st -> (bk = [] \/ exists q, bk = NL :: q) -> l <> [] -> ~ In NL l -> (t = [] \/ exists q, t = NL :: q) -> indented (l ++ t) = true \/ definition (l ++ t) = true -> (forall r, l <> "{"%char :: r) ->
  Goes st (rev l ++ bk) t o -> Goes st bk (l ++ t) (l ++ o).
Proof.
  intros (A1 & A2 & A3) Z Nl N T H Nb G. assert (Le : line_end (l ++ t) = length l). { unfold line_end. destruct T as [->|(q & ->)].
    - rewrite app_nil_r. destruct (strchr NL l) as [k|] eqn:E; [|reflexivity]. apply strchr_some in E as (f & g & E & _). exfalso. apply N. rewrite E. apply in_or_app. right. left. reflexivity.
    - replace (strchr NL (l ++ NL :: q)) with (Some (length l)); [reflexivity|]. symmetry. clear - N. induction l as [|c l IH]; [reflexivity|]. cbn [app strchr]. rewrite (proj2 (ceq_neq _ _)) by (intro K; apply N; left; congruence). rewrite IH by (intro I; apply N; right; exact I). reflexivity. }
  destruct l as [|c l]; [now destruct Nl|]. assert (Lm : line_move bk (c :: l ++ t) = true). { unfold line_move. change (c :: l ++ t) with ((c :: l) ++ t). apply andb_true_intro. split; [destruct Z as [->|(q & ->)]; reflexivity|]. destruct H as [-> | ->]; [reflexivity|apply orb_true_r]. }
  assert (S : act st bk c (l ++ t) = (st, Line (length (c :: l)))). { unfold act. rewrite A3, Lm. rewrite (proj2 (ceq_neq c "{")) by (intros ->; exact (Nb l eq_refl)). cbn [negb andb]. change (c :: l ++ t) with ((c :: l) ++ t). now rewrite Le. }
  replace ((c :: l) ++ o) with (shown (Line (length (c :: l))) (c :: l ++ t) ++ o). 2:{ cbn [shown]. change (c :: l ++ t) with ((c :: l) ++ t). rewrite firstn_app, firstn_all, Nat.sub_diag. change (firstn 0 t) with (@nil ascii). now rewrite app_nil_r. }
  cbn [app]. apply (goes_on st bk c (l ++ t) st); [exact S|]. cbn [size]. change (c :: l ++ t) with ((c :: l) ++ t). rewrite firstn_app, skipn_app, firstn_all, skipn_all, Nat.sub_diag. cbn [firstn skipn app]. rewrite app_nil_r. exact G.
Qed.
