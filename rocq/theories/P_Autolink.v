(** Properties C295-C303: addresses in the text become links. *)
From Verif Require Import Base BaseL L_Pass M_Relax M_Spans M_Autolink S_Autolink L_Autolink L_Autolink2 L_Autolink3 L_Autolink4 L_Autolink5.

Lemma calm_fresh : calm fresh.
Proof. repeat split. Qed.
Lemma url_ex : S_Autolink.url (B "http://a.b/c").
Proof. exists (B "http://"), (B "a.b/"), "c"%char. split; [now left|]. split; [reflexivity|]. split; [apply solids; repeat (constructor; [reflexivity|]); constructor|]. intros [H|[H|[H|[H|[]]]]]; discriminate H. Qed.

(** C295 *)
Theorem C295_room : forall t, autolinks t <> None.
Proof. intro t. destruct (goes_total fresh [] t) as (o & G). rewrite (autolinks_goes t o G). discriminate. Qed.
Example C295_case : autolinks (B "h h a@b.c") = Some (B "h h [a@b.c](mailto:a@b.c)").
Proof. vm_compute. reflexivity. Qed.
Print Assumptions C295_room.

(** C296 *)
Theorem C296_only_links : forall t, exists o, autolinks t = Some o /\ Linked t o.
Proof. intro t. destruct (goes_total fresh [] t) as (o & G). exists o. split; [now apply autolinks_goes|now apply (goes_linked fresh [])]. Qed.
Example C296_case : autolinks (B "See <http://a.b>, me@c.de.") = Some (B "See [http://a.b](http://a.b), [me@c.de](mailto:me@c.de).").
Proof. vm_compute. reflexivity. Qed.
Print Assumptions C296_only_links.

(** C297: every URL that is set off by white space becomes a link *)
Theorem C297_refuted : forall u, S_Autolink.url u -> ~ In "`"%char u -> autolinks (B "` " ++ u) = Some (B "` " ++ u).
Proof.
  intros u U N. destruct (goes_total fresh [] (B "` " ++ u)) as (o & G). rewrite (autolinks_goes _ _ G). f_equal. cbn [app B list_ascii_of_string] in G. inversion G as [|? ? ? ? st' m o' A G']; subst.
  assert (E : act fresh [] "`" (SP :: u) = (Auto false 0 true false false 0 0, Copy 1)) by reflexivity. change " "%char with SP in A. rewrite E in A. injection A as <- <-. cbn [size firstn skipn rev app shown] in *. change " "%char with SP in *. rewrite <- (app_nil_r (SP :: u)) in G'.
  destruct (code_run (SP :: u)) with (st := Auto false 0 true false false 0 0) (bk := ["`"%char]) (t := @nil ascii) (o := o') as (q & -> & Z); [intros [I|I]; [discriminate I|contradiction]|right; reflexivity|now left|exact G'|]. rewrite (Z eq_refl), app_nil_r. reflexivity.
Qed.
Example C297_refuted_case : autolinks (B "` http://a.b/c") = Some (B "` http://a.b/c").
Proof. exact (C297_refuted (B "http://a.b/c") url_ex ltac:(intro I; cbn in I; repeat (destruct I as [I|I]; [discriminate I|]); exact I)). Qed.
Print Assumptions C297_refuted.

Theorem C297_partial : forall a u p b, quiet a -> open_end a -> S_Autolink.url u -> Forall stop p -> closes b -> exists o, autolinks (a ++ u ++ p ++ b) = Some (a ++ link u u ++ p ++ o).
Proof. intros a u p b Q O U P C. destruct (url_text fresh a [] u p b calm_fresh Q O (or_intror (or_introl eq_refl)) (fun F => F) U P C) as (o & G). exists o. now apply autolinks_goes. Qed.
Lemma quiet_ex : quiet (B "See it: ") /\ open_end (B "See it: ").
Proof.
  split; [|right; exists (B "See it:"), SP; split; [reflexivity|now right]]. split; [repeat (constructor; [intro I; cbn in I; repeat (destruct I as [I|I]; [discriminate I|]); exact I|]); constructor|]. assert (W : forall m x, within m x -> strstr m x <> None) by (intros m x (f & g & ->) H; exact (strstr_none _ _ H f g eq_refl)).
  split; [intro H; apply W in H; vm_compute in H; congruence|]. intros m [<-|[<-|[<-|[]]]] H; apply W in H; vm_compute in H; congruence.
Qed.
Example C297_case : exists o, autolinks (B "See it: http://a.b/c., and") = Some (B "See it: [http://a.b/c](http://a.b/c).," ++ o).
Proof. destruct quiet_ex as [Q O]. apply (C297_partial (B "See it: ") (B "http://a.b/c") (B ".,") (B " and") Q O url_ex); [repeat (constructor; [cbn; auto|]); constructor|]. intros [N _]. apply N. right. reflexivity. Qed.
Print Assumptions C297_partial.

(** C298: punctuation behind a URL does not belong to the link *)
Theorem C298_refuted : forall a m v d b, quiet a -> open_end a -> In m schemes -> Forall solid (m ++ v ++ [d]) -> In d (B "!?)'*]}") -> closes b -> exists o, autolinks (a ++ (m ++ v ++ [d]) ++ b) = Some (a ++ link (m ++ v ++ [d]) (m ++ v ++ [d]) ++ o).
Proof.
  intros a m v d b Q O I F D C. apply (C297_partial a (m ++ v ++ [d]) [] b Q O); [|constructor|exact C]. exists m, v, d. split; [exact I|]. split; [reflexivity|]. split; [exact F|]. intro S. apply stop_bool in S. assert (W : existsb (ceq d) (B "!?)'*]}") = true) by (apply existsb_exists; exists d; split; [exact D|apply ceq_refl]). cbn in D. repeat (destruct D as [<-|D]; [discriminate S|]). exact D.
Qed.
Example C298_refuted_case : autolinks (B "(see http://a.b/c)") = Some (B "(see [http://a.b/c)](http://a.b/c))").
Proof. vm_compute. reflexivity. Qed.
Print Assumptions C298_refuted.
Theorem C298_partial : forall a u d b, quiet a -> open_end a -> S_Autolink.url u -> In d (B ".,;:") -> closes b -> exists o, autolinks (a ++ u ++ d :: b) = Some (a ++ link u u ++ d :: o).
Proof. intros a u d b Q O U D C. apply (C297_partial a u [d] b Q O U); [constructor; [exact D|constructor]|exact C]. Qed.
Example C298_case : autolinks (B "See it: http://a.b/c.") = Some (B "See it: [http://a.b/c](http://a.b/c).").
Proof. vm_compute. reflexivity. Qed.
Print Assumptions C298_partial.

(** C299: code is not changed *)
Theorem C299_refuted : forall u b, S_Autolink.url u -> closes b ->
  (exists o, autolinks (B "``" ++ u ++ B "``" ++ b) = Some (B "``" ++ link (u ++ B "``") (u ++ B "``") ++ o))
  /\ exists o, autolinks (B "~~~" ++ [NL] ++ u ++ b) = Some (B "~~~" ++ [NL] ++ link u u ++ o).
Proof.
  intros u b U C. split.
  - destruct (goes_total fresh (rev (u ++ B "``") ++ B "``") b) as (o & G). exists o. apply autolinks_goes.
    assert (U2 : S_Autolink.url (u ++ B "``")). { destruct U as (m & v & c & I & Q & F & N). exists m, (v ++ [c] ++ B "`"), "`"%char. split; [exact I|]. split; [rewrite Q, <- !app_assoc; reflexivity|]. split; [apply Forall_app; split; [exact F|apply solids; repeat (constructor; [reflexivity|]); constructor]|]. intros [H|[H|[H|[H|[]]]]]; discriminate H. }
    destruct (url_step fresh (B "``") (u ++ B "``") [] b calm_fresh U2 (Forall_nil _) C eq_refl eq_refl) as (c & r & E & D & A). cbn [app] in E.
    assert (G1 : Goes fresh (B "``") ((u ++ B "``") ++ b) (link (u ++ B "``") (u ++ B "``") ++ o)) by (exact (goes_link fresh (B "``") (u ++ B "``") _ c r b fresh o E A G)). rewrite <- app_assoc in G1.
    assert (Qs : exists r', u ++ B "``" ++ b = c :: r') by (exists r; rewrite app_assoc; exact E). destruct Qs as (r' & Qs). rewrite Qs in *.
    replace (B "``" ++ link (u ++ B "``") (u ++ B "``") ++ o) with (shown (Copy 2) ("`"%char :: "`"%char :: c :: r') ++ link (u ++ B "``") (u ++ B "``") ++ o) by reflexivity. change (B "``" ++ c :: r') with ("`"%char :: "`"%char :: c :: r'). apply (goes_on fresh [] "`" ("`"%char :: c :: r') fresh (Copy 2)); [|exact G1]. destruct D as [-> | ->]; reflexivity.
  - assert (Q : quiet (B "~~~" ++ [NL])). { split; [repeat (constructor; [intro I; cbn in I; repeat (destruct I as [I|I]; [discriminate I|]); exact I|]); constructor|]. assert (W : forall m x, within m x -> strstr m x <> None) by (intros m x (f & g & ->) H; exact (strstr_none _ _ H f g eq_refl)). split; [intro H; apply W in H; vm_compute in H; congruence|]. intros m [<-|[<-|[<-|[]]]] H; apply W in H; vm_compute in H; congruence. }
    destruct (C297_partial (B "~~~" ++ [NL]) u [] b Q) as (o & H); [right; exists (B "~~~"), NL; split; [reflexivity|left; vm_compute; split; discriminate]|exact U|constructor|exact C|]. exists o. rewrite <- app_assoc in H. exact H.
Qed.
Example C299_refuted_case : autolinks (B "``http://a.b/c``") = Some (B "``[http://a.b/c``](http://a.b/c``)").
Proof. vm_compute. reflexivity. Qed.
Print Assumptions C299_refuted.
Theorem C299_partial : forall a n x t, quiet a -> open_end a -> n = 1 \/ 3 <= n <= 10 -> ~ In "`"%char x -> x <> [] \/ t = [] -> t = [] \/ (exists q, t = "`"%char :: q) ->
  exists o, autolinks (a ++ repeat "`"%char n ++ x ++ t) = Some (a ++ repeat "`"%char n ++ x ++ o).
Proof.
  intros a n x t Q O Hn N Nz T. set (st := ticks fresh n). assert (Hs : in_code st) by (destruct Hn as [-> |Hn]; [right; reflexivity|left; unfold st, ticks; replace (3 <=? n) with true by (symmetry; apply Nat.leb_le; lia); reflexivity]).
  destruct (goes_total st (rev (repeat "`"%char n) ++ rev a) (x ++ t)) as (o & G). destruct (code_run x N st _ t o Hs T G) as (o' & -> & _). exists o'. apply autolinks_goes. destruct n as [|n]; [lia|]. cbn [repeat app].
  assert (L : fst (span (is "`") (repeat "`"%char n ++ x ++ t)) = repeat "`"%char n). { rewrite span_more by (rewrite Forall_forall; intros c I; apply repeat_spec in I; subst c; reflexivity). replace (fst (span (is "`") (x ++ t))) with (@nil ascii); [cbn [fst]; now rewrite app_nil_r|]. symmetry. destruct x as [|c x]; [destruct Nz as [Nz | ->]; [now destruct Nz|reflexivity]|]. cbn [app span]. unfold is at 1. rewrite (proj2 (ceq_neq c "`")) by (intros ->; apply N; left; reflexivity). reflexivity. }
  assert (A : act fresh (rev a) "`" (repeat "`"%char n ++ x ++ t) = (st, Copy (S n))). { unfold act. rewrite line_first by discriminate. rewrite L, repeat_length. rewrite Nat.min_r by lia. reflexivity. }
  apply (quiet_run fresh a calm_fresh Q O [] "`" (repeat "`"%char n ++ x ++ t)); [right; left; repeat split; discriminate|]. rewrite app_nil_r.
  replace ("`"%char :: repeat "`"%char n ++ x ++ o') with (shown (Copy (S n)) ("`"%char :: repeat "`"%char n ++ x ++ t) ++ x ++ o').
  2:{ cbn [shown firstn app]. rewrite firstn_app, repeat_length, Nat.sub_diag, firstn_all2 by (rewrite repeat_length; lia). change (firstn 0 (x ++ t)) with (@nil ascii). now rewrite app_nil_r. }
  apply (goes_on fresh (rev a) "`" _ st); [exact A|]. cbn [size firstn skipn]. rewrite firstn_app, skipn_app, repeat_length, Nat.sub_diag, firstn_all2, skipn_all2 by (rewrite repeat_length; lia). cbn [firstn skipn app]. rewrite app_nil_r. exact G.
Qed.
Example C299_case : autolinks (B "See it: `x http://a.b y` me@c.de") = Some (B "See it: `x http://a.b y` [me@c.de](mailto:me@c.de)").
Proof. vm_compute. reflexivity. Qed.
Print Assumptions C299_partial.

(** Code ends with its second backtick: a URL behind it becomes a link again. *)
Theorem C299_code_ends : forall a x a2 u p b, quiet a -> open_end a -> x <> [] -> Forall (fun c => ~ In c (B "`{<" ++ [NL])) x -> quiet a2 -> a2 <> [] -> open_end a2 -> S_Autolink.url u -> Forall stop p -> closes b ->
  exists o, autolinks (a ++ "`"%char :: x ++ "`"%char :: a2 ++ u ++ p ++ b) = Some (a ++ "`"%char :: x ++ "`"%char :: a2 ++ link u u ++ p ++ o).
Proof.
  intros a x a2 u p b Qa Oa Nx X Q2 N2 O2 U P C. set (st := Auto false 0 true false false 0 0).
  assert (Nlt : ~ In "<"%char ("`"%char :: rev x ++ "`"%char :: rev a)). { intros [I|I]; [discriminate I|]. apply in_app_or in I as [I|[I|I]]; [|discriminate I|]; apply in_rev in I; [rewrite Forall_forall in X; apply (X _ I); cbn; tauto|]. destruct (quiet_in a _ Qa I) as (_ & _ & _ & _ & H & _). now apply H. }
  destruct (url_text fresh a2 ("`"%char :: rev x ++ "`"%char :: rev a) u p b calm_fresh Q2 O2 (or_introl N2) Nlt U P C) as (o & G). exists o. apply autolinks_goes.
  assert (Tick : forall c r, c <> "`"%char -> fst (span (is "`") (c :: r)) = []) by (intros c r D; cbn [span]; unfold is at 1; now rewrite (proj2 (ceq_neq _ _) D)).
  apply (quiet_run fresh a calm_fresh Qa Oa [] "`"); [right; left; repeat split; discriminate|]. rewrite app_nil_r.
  assert (In1 : forall y bk t q, Forall (fun c => ~ In c (B "`{<" ++ [NL])) y -> (match bk with [] => False | d :: _ => d <> NL end) -> Goes st (rev y ++ bk) t q -> Goes st bk (y ++ t) (y ++ q)).
  { induction y as [|c y IH]; intros bk t q F H K; [exact K|]. inversion F as [|? ? Fc Fy]; subst. cbn [app]. apply (goes_one st bk c (y ++ t) st).
    - unfold act. replace (line_move bk (c :: y ++ t)) with false by (unfold line_move; destruct bk as [|d bk]; [destruct H|]; now rewrite (proj2 (ceq_neq _ _) H)). rewrite (proj2 (ceq_neq c "{")) by (intros ->; apply Fc; cbn; tauto). rewrite (proj2 (ceq_neq c "`")) by (intros ->; apply Fc; cbn; tauto). reflexivity.
    - apply IH; [exact Fy|intros ->; apply Fc; cbn; tauto|]. cbn [rev] in K. rewrite <- app_assoc in K. exact K. }
  apply (goes_one fresh (rev a) "`" _ st).
  - unfold act. rewrite line_first by discriminate. destruct x as [|c x]; [contradiction|]. inversion X as [|? ? Xc _]; subst. cbn [app]. rewrite Tick by (intros ->; apply Xc; cbn; tauto). reflexivity.
  - apply In1; [exact X|discriminate|]. apply (goes_one st _ "`" _ fresh); [|exact G].
    unfold act. rewrite line_first by discriminate. destruct a2 as [|c a2]; [contradiction|]. destruct (quiet_in _ c Q2 (or_introl eq_refl)) as (H1 & _). cbn [app]. rewrite Tick by (intros ->; destruct Q2 as (Q2 & _); apply Forall_inv in Q2; apply Q2; cbn; tauto). reflexivity.
Qed.
Print Assumptions C299_code_ends.

(** C300: a link in the text stays as it is *)
Lemma mail_link_token n e : Forall solid n -> ~ In "@"%char n -> mail e -> token (B "[" ++ n ++ B "](mailto:" ++ e ++ B ")").
Proof.
  intros Fn Nn (x & d & h & k & y & c & Q & F & D & N & _ & Hh & Hk & _ & _ & _). exists (B "[" ++ n ++ B "](mailto:" ++ x), d, h, k, (y ++ B ")"), ")"%char. split; [rewrite Q; repeat (rewrite <- app_assoc; cbn [app]); reflexivity|].
  split; [repeat (apply Forall_app; split); try exact Fn; try exact F; apply solids; repeat (constructor; [reflexivity|]); constructor|]. split; [exact D|]. split; [intro I; apply in_app_or in I as [I|I]; [destruct I as [I|[]]; discriminate I|]; apply in_app_or in I as [I|I]; [contradiction|]; apply in_app_or in I as [I|I]; [cbn in I; repeat (destruct I as [I|I]; [discriminate I|]); exact I|contradiction]|].
  split; [exact Hh|]. split; [exact Hk|]. split; [exists (B "[" ++ n ++ B "](mailto:" ++ e); rewrite <- !app_assoc; reflexivity|]. split; [intros [H|[H|[H|[H|[]]]]]; discriminate H|]. intros m r [<-|[<-|[<-|[]]]] H; discriminate H.
Qed.
Theorem C300_refuted :
  (forall n e b, Forall solid n -> ~ In "@"%char n -> mail e -> closes b -> let l := B "[" ++ n ++ B "](mailto:" ++ e ++ B ")" in exists o, autolinks (B "Mail " ++ l ++ b) = Some (B "Mail " ++ link l (B "mailto:" ++ l) ++ o))
  /\ forall x u b, quiet x -> open_end x -> x <> [] -> S_Autolink.url u -> closes b -> exists o, autolinks (B "See [" ++ x ++ u ++ b) = Some (B "See [" ++ x ++ link u u ++ o).
Proof.
  split.
  - intros n e b Fn Nn E C l. pose proof (mail_link_token n e Fn Nn E) as T. fold l in T. set (r := n ++ B "](mailto:" ++ e ++ B ")") in *. destruct (goes_total opened (rev l ++ rev (B "Mail ")) b) as (o & G). exists o. apply autolinks_goes.
    apply (see_run (B "Mail ") 5 (r ++ b)); [right; left; reflexivity|]. change ("["%char :: r ++ b) with (l ++ b). apply (goes_link fresh (rev (B "Mail ")) l _ "[" (r ++ b) b opened); [reflexivity| |exact G].
    rewrite (token_step fresh (rev (B "Mail ")) "[" (r ++ b) l [] b calm_fresh); try discriminate; try reflexivity; [exact T|constructor|exact C|]. right. exists SP, (rev (B "Mail")). split; [reflexivity|now right].
  - intros x u b Q O Nx U C. destruct (url_text opened x (B "[ eeS") u [] b) as (o & G); [repeat split|exact Q|exact O|now left|intro I; cbn in I; repeat (destruct I as [I|I]; [discriminate I|]); exact I|exact U|constructor|exact C|]. exists o. apply autolinks_goes. cbn [app] in G.
    apply (see_run (B "See ") 4 (x ++ u ++ b)); [now left|]. apply (goes_one fresh (rev (B "See ")) "[" (x ++ u ++ b) opened); [|exact G].
    destruct O as [O|(q & w & O & W)]; [contradiction|]. apply plain_step; [repeat split|discriminate|discriminate|discriminate|reflexivity|reflexivity|]. right. right. split; [apply url_first; discriminate|]. apply no_mail. intro I. rewrite O in I. rewrite <- app_assoc in I. change ("["%char :: q ++ [w] ++ u ++ b) with (("["%char :: q) ++ w :: u ++ b) in I. apply word_in in I; [|unfold word; now rewrite (proj1 (white_bool w) W)]. destruct I as [I|I]; [discriminate I|]. assert (J : In "@"%char x) by (rewrite O; apply in_or_app; now left). destruct (quiet_in _ _ Q J) as (_ & _ & _ & _ & _ & J6 & _). now apply J6.
Qed.
Example C300_refuted_case : autolinks (B "Mail [me](mailto:me@b.co)") = Some (B "Mail [[me](mailto:me@b.co)](mailto:[me](mailto:me@b.co))") /\ autolinks (B "See [it at http://d](http://e)") = Some (B "See [it at [http://d](http://e)](http://d](http://e))").
Proof. split; vm_compute; reflexivity. Qed.
Print Assumptions C300_refuted.
Theorem C300_partial : forall x v b, calls x -> dest v -> closes b -> exists o, autolinks (B "See " ++ link x v ++ b) = Some (B "See " ++ link x v ++ o).
Proof.
  intros x v b X V C. destruct (goes_total opened (rev (B "[" ++ x ++ B "](" ++ v ++ B ")") ++ rev (B "See ")) b) as (o & G). exists o. apply autolinks_goes. unfold link. rewrite <- !app_assoc. apply (see_run (B "See ") 4 (x ++ B "](" ++ v ++ B ")" ++ b)); [now left|].
  exact (link_goes x v b (rev (B "See ")) o X V C ltac:(cbn; discriminate) G).
Qed.
Example C300_case : autolinks (B "See [it](http://a.b/c?d=http://e) http://f") = Some (B "See [it](http://a.b/c?d=http://e) [http://f](http://f)").
Proof. vm_compute. reflexivity. Qed.
Print Assumptions C300_partial.

(** C301 *)
Theorem C301_mail : forall a u p b, quiet a -> open_end a -> mail u -> Forall stop p -> closes b -> exists o, autolinks (a ++ u ++ p ++ b) = Some (a ++ link u (B "mailto:" ++ u) ++ p ++ o).
Proof. intros a u p b Q O U P C. destruct (mail_text fresh a [] u p b calm_fresh Q O (or_intror (or_introl eq_refl)) (fun F => F) U P C) as (o & G). exists o. now apply autolinks_goes. Qed.
Lemma mail_ex : mail (B "me@c.de").
Proof.
  exists (B "m"), "e"%char, (B "c"), "d"%char, (B "e"), "e"%char. split; [reflexivity|]. split; [apply solids; repeat (constructor; [reflexivity|]); constructor|]. split; [now apply alnum_bool|]. split; [intros [I|[]]; discriminate I|]. split; [exists "m"%char, (B "e"); split; [reflexivity|now apply alnum_bool]|]. split; [constructor; [left; now apply alnum_bool|constructor]|]. split; [now apply alnum_bool|]. split; [now exists (B "me@c.d")|]. split; [intros [H|[H|[H|[H|[]]]]]; discriminate H|]. intros m r [<-|[<-|[<-|[]]]] H; discriminate H.
Qed.
Example C301_case : exists o, autolinks (B "See it: me@c.de, or") = Some (B "See it: [me@c.de](mailto:me@c.de)," ++ o).
Proof. destruct quiet_ex as [Q O]. apply (C301_mail (B "See it: ") (B "me@c.de") (B ",") (B " or") Q O mail_ex); [repeat (constructor; [cbn; auto|]); constructor|]. intros [N _]. apply N. right. reflexivity. Qed.
Print Assumptions C301_mail.

(** C302: a tag stays as it is *)
Lemma key_token k e : ident k -> mail e -> token (k ++ B "=" ++ [DQ] ++ B "mailto:" ++ e ++ [DQ]).
Proof.
  intros (Nk & Fk) (x & d & h & y0 & y & c & Q & F & D & N & _ & Hh & Hk & _ & _ & _). exists (k ++ B "=" ++ [DQ] ++ B "mailto:" ++ x), d, h, y0, (y ++ [DQ]), DQ. split; [rewrite Q; repeat (rewrite <- app_assoc; cbn [app]); reflexivity|].
  assert (Sk : Forall solid k). { eapply Forall_impl; [|exact Fk]. intros z Z. apply alnum_bool in Z. apply solid_bool. unfold word. assert (V : forall w, isalnum w = true -> negb (isspace w) && negb (ceq w "<") && negb (ceq w ">") = true). { intros w. clear. intro H. destruct w as [[] [] [] [] [] [] [] []]; vm_compute in H |- *; congruence. } now apply V. }
  split; [repeat (apply Forall_app; split); try exact Sk; try exact F; apply solids; repeat (constructor; [reflexivity|]); constructor|]. split; [exact D|].
  split; [intro I; apply in_app_or in I as [I|I]; [exact (ident_no k "@" Fk eq_refl I)|]; apply in_app_or in I as [I|I]; [destruct I as [I|[]]; discriminate I|]; apply in_app_or in I as [I|I]; [destruct I as [I|[]]; discriminate I|]; apply in_app_or in I as [I|I]; [cbn in I; repeat (destruct I as [I|I]; [discriminate I|]); exact I|contradiction]|].
  split; [exact Hh|]. split; [exact Hk|]. split; [exists (k ++ B "=" ++ [DQ] ++ B "mailto:" ++ e); rewrite <- !app_assoc; reflexivity|]. split; [intros [H|[H|[H|[H|[]]]]]; discriminate H|]. intros m r I H.
  assert (U : M_Autolink.url (k ++ "="%char :: DQ :: B "mailto:" ++ e ++ [DQ]) = true) by (apply url_shape; exists m, r; split; [exact I|exact H]). rewrite (ident_url k "=" _ Fk (or_intror eq_refl)) in U. discriminate U.
Qed.
Theorem C302_refuted :
  (forall n k e b, ident n -> ident k -> mail e -> let w := k ++ B "=" ++ [DQ] ++ B "mailto:" ++ e ++ [DQ] in exists o, autolinks (tag n k (B "mailto:" ++ e) ++ b) = Some (B "<" ++ n ++ B " " ++ link w (B "mailto:" ++ w) ++ B ">" ++ o))
  /\ forall n k v u b, ident n -> ident k -> value v -> S_Autolink.url u -> ~ In "@"%char u -> exists o, autolinks (tag n k (v ++ B "=" ++ u) ++ b) = Some (B "<" ++ n ++ B " " ++ k ++ B "=" ++ [DQ] ++ v ++ B "=" ++ link (u ++ [DQ]) (u ++ [DQ]) ++ o).
Proof.
  assert (NotLt : forall n, ident n -> ~ In "<"%char (SP :: rev n) /\ ~ In ">"%char (SP :: rev n) /\ ~ In "="%char (SP :: rev n)). { intros n (_ & F). repeat split; (intros [I|I]; [discriminate I|]; apply in_rev in I; revert I; apply (ident_no n _ F); reflexivity). }
  split.
  - intros n k e b Hn Hk E w. pose proof (key_token k e Hk E) as T. fold w in T. destruct (goes_total fresh (">"%char :: rev w ++ SP :: rev n ++ ["<"%char]) b) as (o & G). exists o. apply autolinks_goes. destruct (NotLt n Hn) as (N1 & N2 & N3).
    replace (tag n k (B "mailto:" ++ e) ++ b) with ("<"%char :: n ++ SP :: w ++ ">"%char :: b) by (unfold tag, w; repeat (rewrite <- app_assoc; cbn [app]); reflexivity). replace (B "<" ++ n ++ B " " ++ link w (B "mailto:" ++ w) ++ B ">" ++ o) with ("<"%char :: n ++ SP :: link w (B "mailto:" ++ w) ++ ">"%char :: o) by reflexivity.
    apply tag_open; [exact Hn|]. destruct Hk as (Nk & Fk). destruct k as [|k0 k]; [now destruct Nk|]. assert (NC : forall d, isalnum d = false -> k0 <> d) by (intros d; apply (ident_apart _ k0 Fk); now left).
    assert (Z : before (SP :: rev n ++ ["<"%char])) by (right; exists SP, (rev n ++ ["<"%char]); split; [reflexivity|now right]). assert (C : closes (">"%char :: b)) by (intros (_ & _ & C); now apply C).
    apply (goes_link fresh _ w _ k0 (skipn 1 w ++ ">"%char :: b) (">"%char :: b) fresh); [reflexivity| |].
    + rewrite (token_step fresh _ k0 (skipn 1 w ++ ">"%char :: b) w [] (">"%char :: b) calm_fresh); try (apply NC; reflexivity); try reflexivity; [rewrite brackets_off by (try (apply NC; reflexivity); reflexivity); reflexivity|exact T|constructor|exact C|exact Z|]. change (SP :: rev n ++ ["<"%char]) with ((SP :: rev n) ++ "<"%char :: []). now apply attr_noeq.
    + apply (goes_one fresh _ ">" b fresh); [|exact G]. apply plain_step; [repeat split|discriminate|discriminate|discriminate|apply line_first; discriminate|reflexivity|]. right. right. split; [apply url_first; discriminate|]. apply no_mail. intros [].
  - intros n k v u b Hn Hk Hv U Nu. destruct (NotLt n Hn) as (N1 & N2 & N3). assert (Nk : ~ In "<"%char (rev k ++ SP :: rev n) /\ ~ In ">"%char (rev k ++ SP :: rev n)). { destruct Hk as (_ & Fk). split; (intro I; apply in_app_or in I as [I|I]; [apply in_rev in I; revert I; apply (ident_no k _ Fk); reflexivity|contradiction]). }
    assert (U2 : S_Autolink.url (u ++ [DQ])). { destruct U as (m & w & c & I & Q & F & N). exists m, (w ++ [c]), DQ. split; [exact I|]. split; [rewrite Q, <- !app_assoc; reflexivity|]. split; [apply Forall_app; split; [exact F|apply solids; repeat (constructor; [reflexivity|]); constructor]|]. intros [H|[H|[H|[H|[]]]]]; discriminate H. }
    assert (C : closes (">"%char :: b)) by (intros (_ & _ & C); now apply C). set (i := rev k ++ SP :: rev n) in *. assert (At : ~ In "@"%char (B "=" ++ u ++ [DQ])). { change (B "=" ++ u ++ [DQ]) with ("="%char :: u ++ [DQ]). intro I. destruct I as [I|I]; [discriminate I|]. apply in_app_or in I as [I|I]; [contradiction|]. destruct I as [I|[]]; discriminate I. }
    set (bk := "="%char :: rev v ++ DQ :: "="%char :: i ++ ["<"%char]). assert (A : attr bk = false). { unfold bk. replace (rev v ++ DQ :: "="%char :: i ++ ["<"%char]) with ((rev v ++ DQ :: "="%char :: i) ++ "<"%char :: []) by (rewrite <- app_assoc; reflexivity). apply attr_fresh. }
    destruct (goes_total fresh (rev (u ++ [DQ]) ++ bk) (">"%char :: b)) as (o & G). exists o. apply autolinks_goes. destruct (url_step fresh bk (u ++ [DQ]) [] (">"%char :: b) calm_fresh U2 (Forall_nil _) C eq_refl A) as (c & r & E & D & S). cbn [app] in E.
    pose proof (goes_link fresh bk (u ++ [DQ]) (u ++ [DQ]) c r (">"%char :: b) fresh o E S G) as G1.
    replace (tag n k (v ++ B "=" ++ u) ++ b) with ("<"%char :: n ++ SP :: k ++ "="%char :: DQ :: (v ++ B "=" ++ u ++ [DQ]) ++ ">"%char :: b) by (unfold tag; repeat (rewrite <- app_assoc; cbn [app B list_ascii_of_string]); reflexivity).
    replace (B "<" ++ n ++ B " " ++ k ++ B "=" ++ [DQ] ++ v ++ B "=" ++ link (u ++ [DQ]) (u ++ [DQ]) ++ o) with ("<"%char :: n ++ SP :: k ++ "="%char :: DQ :: v ++ "="%char :: link (u ++ [DQ]) (u ++ [DQ]) ++ o) by reflexivity.
    assert (Av : ~ In "@"%char v) by (intro I; unfold value in Hv; rewrite Forall_forall in Hv; apply (Hv _ I); inlist).
    apply tag_open; [exact Hn|]. apply key_run; [exact Hk|cbn; discriminate| |exact C|].
    { intro I. apply in_app_or in I as [I|I]; [destruct Hk as (_ & Fk); revert I; apply (ident_no k _ Fk); reflexivity|]. destruct I as [I|[I|I]]; [discriminate I|discriminate I|]. apply in_app_or in I as [I|I]; contradiction. }
    replace (rev k ++ SP :: rev n ++ ["<"%char]) with (i ++ ["<"%char]) by (unfold i; rewrite <- app_assoc; reflexivity). rewrite <- app_assoc. apply value_run; [exact Hv|apply Nk|apply Nk|exact At|exact C|].
    cbn [app B list_ascii_of_string]. apply (goes_one fresh _ "=" ((u ++ [DQ]) ++ ">"%char :: b) fresh); [|exact G1]. apply plain_step; [repeat split|discriminate|discriminate|discriminate|apply line_first; discriminate|reflexivity|]. right. right. split; [apply url_first; discriminate|]. apply no_mail. intro I. change ("="%char :: (u ++ [DQ]) ++ ">"%char :: b) with ((B "=" ++ u ++ [DQ]) ++ ">"%char :: b) in I. apply word_in in I; [|reflexivity]. contradiction.
Qed.
Example C302_refuted_case : autolinks (B "<a href=""mailto:me@b.co"">") = Some (B "<a [href=""mailto:me@b.co""](mailto:href=""mailto:me@b.co"")>") /\ autolinks (B "<a href=""?u=http://z"">") = Some (B "<a href=""?u=[http://z""](http://z"")>").
Proof. split; vm_compute; reflexivity. Qed.
Print Assumptions C302_refuted.
Theorem C302_partial : forall n k v b, ident n -> ident k -> value v -> exists o, autolinks (tag n k v ++ b) = Some (tag n k v ++ o).
Proof.
  intros n k v b Hn Hk Hv. assert (C : closes (">"%char :: b)) by (intros (_ & _ & C); now apply C). assert (Nk : ~ In "<"%char (rev k ++ SP :: rev n) /\ ~ In ">"%char (rev k ++ SP :: rev n)). { destruct Hk as (_ & Fk). destruct Hn as (_ & Fn). split; (intro I; apply in_app_or in I as [I|[I|I]]; [apply in_rev in I; revert I; apply (ident_no k _ Fk); reflexivity|discriminate I|apply in_rev in I; revert I; apply (ident_no n _ Fn); reflexivity]). }
  set (i := rev k ++ SP :: rev n) in *. destruct (goes_total fresh (">"%char :: DQ :: rev v ++ DQ :: "="%char :: i ++ ["<"%char]) b) as (o & G). exists o. apply autolinks_goes.
  replace (tag n k v ++ b) with ("<"%char :: n ++ SP :: k ++ "="%char :: DQ :: (v ++ [DQ]) ++ ">"%char :: b) by (unfold tag; repeat (rewrite <- app_assoc; cbn [app B list_ascii_of_string]); reflexivity). replace (tag n k v ++ o) with ("<"%char :: n ++ SP :: k ++ "="%char :: DQ :: v ++ DQ :: ">"%char :: o) by (unfold tag; repeat (rewrite <- app_assoc; cbn [app B list_ascii_of_string]); reflexivity).
  assert (Av : ~ In "@"%char v) by (intro I; unfold value in Hv; rewrite Forall_forall in Hv; apply (Hv _ I); inlist). apply tag_open; [exact Hn|]. apply key_run; [exact Hk|cbn; discriminate| |exact C|].
  { intro I. apply in_app_or in I as [I|I]; [destruct Hk as (_ & Fk); revert I; apply (ident_no k _ Fk); reflexivity|]. destruct I as [I|[I|I]]; [discriminate I|discriminate I|]. apply in_app_or in I as [I|[I|[]]]; [contradiction|discriminate I]. }
  replace (rev k ++ SP :: rev n ++ ["<"%char]) with (i ++ ["<"%char]) by (unfold i; rewrite <- app_assoc; reflexivity). rewrite <- app_assoc. apply value_run; [exact Hv|apply Nk|apply Nk|intros [I|[]]; discriminate I|exact C|].
  cbn [app]. apply (goes_one fresh _ DQ (">"%char :: b) fresh). { apply plain_step; [repeat split|discriminate|discriminate|discriminate|apply line_first; discriminate|reflexivity|]. right. right. split; [apply url_first; discriminate|]. apply no_mail. intro I. apply (word_in [DQ] ">" b) in I; [|reflexivity]. destruct I as [I|[]]; discriminate I. }
  apply (goes_one fresh _ ">" b fresh); [|exact G]. apply plain_step; [repeat split|discriminate|discriminate|discriminate|apply line_first; discriminate|reflexivity|]. right. right. split; [apply url_first; discriminate|]. apply no_mail. intros [].
Qed.
Example C302_case : autolinks (B "<a href=""http://b.co/?q http://c"">http://d</a>") = Some (B "<a href=""http://b.co/?q http://c"">[http://d](http://d)</a>").
Proof. vm_compute. reflexivity. Qed.
Print Assumptions C302_partial.

(** C303 *)
Theorem C303_lines : forall a l t, quiet a -> a = [] \/ (exists q, a = q ++ [NL]) -> ~ In NL l -> t = [] \/ (exists q, t = NL :: q) ->
  (exists i r, l = B "[" ++ i ++ B "]:" ++ r /\ ~ In "]"%char i) \/ (exists r, l = B "    " ++ r) \/ (exists r, l = TAB :: r) ->
  exists o, autolinks (a ++ l ++ t) = Some (a ++ l ++ o).
Proof.
  intros a l t Q A N T H. destruct (goes_total fresh (rev l ++ rev a) t) as (o & G). exists o. apply autolinks_goes.
  assert (O : open_end a) by (destruct A as [->|(q & ->)]; [now left|right; exists q, NL; split; [reflexivity|left; vm_compute; split; discriminate]]).
  assert (Z : exists d r, l = d :: r /\ d <> "{"%char) by (destruct H as [(i & r & -> & _)|[(r & ->)|(r & ->)]]; eexists; eexists; (split; [reflexivity|discriminate])). destruct Z as (d & r & E & Nd).
  assert (G1 : Goes fresh (rev a) (l ++ t) (l ++ o)). { apply line_goes; [repeat split|destruct A as [->|(q & ->)]; [now left|right; exists (rev q); now rewrite rev_app_distr]|rewrite E; discriminate|exact N|exact T| |rewrite E; intros r' K; injection K as K _; contradiction|exact G].
    destruct H as [(i & r' & -> & Ni)|[(r' & ->)|(r' & ->)]].
    - right. unfold definition. cbn [app B list_ascii_of_string span]. change (gap "[") with false. cbn [snd]. change (ceq "[" "[") with true. cbv iota. rewrite <- app_assoc. replace (strchr "]" (i ++ ("]"%char :: ":"%char :: r') ++ t)) with (Some (length i)) by (symmetry; apply strchr_some; exists i, (":"%char :: r' ++ t); auto). unfold at_. rewrite app_nth2 by lia. replace (S (length i) - length i) with 1 by lia. reflexivity.
    - left. unfold indented. cbn [app B list_ascii_of_string span]. change (is SP " ") with true. cbv iota. destruct (span (is SP) (r' ++ t)) as [f g]. reflexivity.
    - left. reflexivity. }
  rewrite E in *. cbn [app] in *. apply (quiet_run fresh a calm_fresh Q O [] d (r ++ t)); [|rewrite app_nil_r; exact G1]. destruct A as [->|A]; [now left|]. right. right. exact A.
Qed.
Example C303_case : autolinks (B "[a]: http://b.co me@c.de") = Some (B "[a]: http://b.co me@c.de") /\ autolinks (B "    http://b.co me@c.de") = Some (B "    http://b.co me@c.de").
Proof. split; vm_compute; reflexivity. Qed.
Print Assumptions C303_lines.
