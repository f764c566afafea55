(** Lemmas for C246-C257. *)
From Coq Require Import Sorting.Permutation Sorting.Sorted.
From Verif Require Import Base BaseL Dec L_MetaParse S_Pass L_Pass M_Front S_Front L_Front L_Syntax M_Index S_Index.

(** ** Buffers *)
Definition sound (b : buf) : Prop := b_bad b = false /\ length (b_out b) < b_cap b.

Lemma copy_sound c b : sound b -> sound (copy c b) /\ b_out (copy c b) = b_out b ++ [c].
Proof.
  intros [H1 H2]. unfold sound, copy, write, room.
  destruct (b_cap b - length (b_out b) <? 2) eqn:E; cbn [b_cap b_out b_bad]; rewrite H1, app_length; cbn [length orb];
    (split; [split; [apply Nat.ltb_ge|]|reflexivity]); try apply Nat.ltb_ge in E; lia.
Qed.

Lemma print_sound x b : sound b -> sound (print x b) /\ b_out (print x b) = b_out b ++ x.
Proof.
  intros [H1 H2]. unfold sound, print, room.
  destruct (b_cap b - length (b_out b) <? length x + 1) eqn:E; cbn [b_cap b_out b_bad]; rewrite H1, app_length; cbn [length orb];
    (split; [split; [apply Nat.ltb_ge|]|reflexivity]); try apply Nat.ltb_ge in E; lia.
Qed.

Lemma append_sound x b : sound b -> sound (append b x) /\ b_out (append b x) = b_out b ++ x.
Proof.
  intros [H1 H2]. unfold sound, append, write.
  destruct (length x <? b_cap b - length (b_out b)) eqn:E; cbn [b_cap b_out b_bad]; rewrite H1, app_length; cbn [length orb];
    (split; [split; [apply Nat.ltb_ge|]|reflexivity]); try apply Nat.ltb_lt in E; lia.
Qed.

Lemma sound_end b : sound b -> bad_end b = false.
Proof. intros [H1 H2]. unfold bad_end. rewrite H1. apply Nat.leb_gt. exact H2. Qed.

Lemma appends_sound xs : forall b, sound b -> sound (fold_left append xs b) /\ b_out (fold_left append xs b) = b_out b ++ concat xs.
Proof.
  induction xs as [|x xs IH]; intros b S; cbn [fold_left concat]; [rewrite app_nil_r; auto|].
  destruct (append_sound x b S) as [S' E]. destruct (IH _ S') as [S'' E']. split; [exact S''|]. rewrite E', E, <- app_assoc. reflexivity.
Qed.

Lemma index_exact by_letter es : index_html by_letter es = Some (concat (appended by_letter es)).
Proof.
  unfold index_html. destruct (appends_sound (appended by_letter es) (Buf (8 * 1024) [] false)) as [S E]; [split; [reflexivity|cbn [b_cap b_out length]; lia]|].
  cbv zeta. rewrite (sound_end _ S), E. reflexivity.
Qed.

(** ** White space *)
Lemma trim_end_whites b : whites b -> trim_end b = [].
Proof. intro W. unfold trim_end. rewrite span_whites; [reflexivity|]. apply Forall_rev. exact W. Qed.

Lemma trim_end_at r c b : isspace c = false -> whites b -> trim_end (r ++ c :: b) = r ++ [c].
Proof.
  intros N W. unfold trim_end. rewrite rev_app_distr. cbn [rev]. rewrite <- app_assoc. cbn [app]. rewrite span_white; [|apply Forall_rev; exact W|exact N].
  cbn [snd rev]. rewrite rev_involutive. reflexivity.
Qed.

Lemma trim_at a x b : whites a -> solid x -> whites b -> trim (a ++ x ++ b) = a ++ x.
Proof.
  intros Wa [(c & r & E & N) (d & q & E' & N')] Wb. unfold trim.
  assert (span isspace (a ++ x ++ b) = (a, x ++ b)) as -> by (rewrite E; cbn [app]; apply span_white; assumption).
  rewrite E', <- app_assoc. cbn [app]. rewrite trim_end_at by assumption. reflexivity.
Qed.

Lemma trim_tail x b : solid x -> whites b -> trim (x ++ b) = x.
Proof. intros Sx Wb. exact (trim_at [] x b (Forall_nil _) Sx Wb). Qed.

Lemma trim_self x : solid x -> trim x = x.
Proof. intro Sx. rewrite <- (app_nil_r x) at 1. apply trim_tail; [exact Sx|constructor]. Qed.

Lemma trim_whites a : whites a -> trim a = a.
Proof. intro W. unfold trim. rewrite (span_whites a W). cbn. apply app_nil_r. Qed.

Lemma trim_nonempty s : s <> [] -> trim s <> [].
Proof.
  intro N. destruct (white_cases s) as [W|(a & x & b & -> & Wa & Sx & Wb)]; [now rewrite trim_whites|].
  rewrite trim_at by assumption. destruct Sx as [(c & r & -> & _) _]. now destruct a.
Qed.

Lemma spaces_white e : spaces e -> whites e.
Proof. intro H. eapply Forall_impl; [|exact H]. intros c ->. reflexivity. Qed.

(** ** The shape of what is taken *)
Lemma span_split p s a b : span p s = (a, b) -> s = a ++ b /\ Forall (fun c => p c = true) a /\ (forall c r, b = c :: r -> p c = false).
Proof. intro E. destruct (span_shape p s) as (F & G & H). rewrite E in F, G, H. cbn [fst snd] in F, G, H. auto. Qed.

Lemma snd_split p s : exists a, s = a ++ snd (span p s) /\ Forall (fun c => p c = true) a.
Proof. destruct (span p s) as [a b] eqn:E. destruct (span_split _ _ _ _ E) as (H & F & _). exists a. auto. Qed.

Lemma starts_split x s : starts x s = true -> s = x ++ skipn (length x) s.
Proof. intro H. apply starts_spec in H. destruct H as [r ->]. rewrite skip_front; reflexivity. Qed.

Lemma negb_in c (l : str) p : Forall (fun x => p x = true) l -> p c = false -> ~ In c l.
Proof. intros F N I. rewrite Forall_forall in F. rewrite (F c I) in N. discriminate N. Qed.

Lemma mmark_shape s item sub p rest : mmark s = Some (item, sub, p, rest) -> exists w, s = w ++ rest /\ entry_shape w.
Proof.
  unfold mmark. destruct (length s <=? 3) eqn:L; [discriminate|]. apply Nat.leb_gt in L. destruct (starts (B "(!") s) eqn:St; [|discriminate]. cbn [negb].
  apply starts_split in St. change (length (B "(!")) with 2 in St.
  destruct (span _ (skipn _ s)) as [it q] eqn:Sp. destruct (span_split _ _ _ _ Sp) as (E & F & G).
  destruct (forallb _ it) eqn:V; [|discriminate]. cbn [negb]. destruct (trim it) as [|i0 i1]; [discriminate|].
  assert (exists a, skipn 2 s = a ++ it ++ q /\ ~ In ")"%char a) as (a & Ea & Na).
  { destruct (ceq (at_ s 2) "!") eqn:C; [|exists []; split; [exact E|auto]]. exists (B "!"). split.
    - rewrite <- E. apply ceq_eq in C. destruct s as [|x1 [|x2 [|x3 s]]]; cbn [length] in L; try lia. cbn [at_ nth] in C. rewrite C. reflexivity.
    - intros [A|[]]. discriminate A. }
  destruct q as [|c r]; [discriminate|]. specialize (G c r eq_refl). destruct (ceq c ",") eqn:Cm.
  - destruct (span _ (snd (span isspace r))) as [sb q] eqn:Sq. destruct (span_split _ _ _ _ Sq) as (E2 & F2 & G2).
    destruct (forallb valid sb) eqn:V2; [|discriminate]. cbn [negb]. destruct q as [|d rest']; [discriminate|]. intro H. injection H as _ _ _ <-.
    specialize (G2 d rest' eq_refl). apply Bool.negb_false_iff, ceq_eq in G2. subst d. destruct (snd_split isspace r) as (w & Ew & Fw). rewrite E2 in Ew.
    exists (B "(!" ++ (a ++ it ++ c :: w ++ sb) ++ B ")"). split.
    + rewrite St, Ea, Ew. cbn [B list_ascii_of_string app]. rewrite <- ?app_assoc. cbn [app]. rewrite <- ?app_assoc. reflexivity.
    + eexists. left. split; [reflexivity|]. intro I. apply in_app_or in I. destruct I as [I|I]; [auto|]. apply in_app_or in I. destruct I as [I|I].
      * revert I. apply (negb_in _ _ _ F). reflexivity.
      * apply ceq_eq in Cm. subst c. destruct I as [I|I]; [discriminate I|]. apply in_app_or in I. destruct I as [I|I].
        -- revert I. apply (negb_in _ _ _ Fw). reflexivity.
        -- revert I. apply (negb_in _ _ _ F2). reflexivity.
  - intro H. injection H as _ _ _ <-. cbn [negb andb] in G. apply Bool.negb_false_iff, ceq_eq in G. subst c.
    exists (B "(!" ++ (a ++ it) ++ B ")"). split.
    + rewrite St, Ea. cbn [B list_ascii_of_string app]. rewrite <- ?app_assoc. reflexivity.
    + eexists. left. split; [reflexivity|]. intro I. apply in_app_or in I. destruct I as [I|I]; [auto|]. revert I. apply (negb_in _ _ _ F). reflexivity.
Qed.

Lemma textindex_shape rb s item sub p rest : textindex rb s = Some (item, sub, p, rest) -> exists w, s = w ++ rest /\ entry_shape w.
Proof.
  unfold textindex. destruct (length s <=? 2); [discriminate|]. destruct (starts (B "{^") s) eqn:St; [|discriminate]. cbn [negb].
  apply starts_split in St. change (length (B "{^")) with 2 in St.
  destruct (span _ (skipn 2 s)) as [pa q] eqn:Sp. destruct (span_split _ _ _ _ Sp) as (E & F & G). destruct q as [|c r]; [discriminate|].
  destruct (ceq c "}") eqn:C; [|discriminate]. cbn [negb]. apply ceq_eq in C. subst c.
  destruct (match bracketed rb with [] => phrase rb | t => t end) as [|t0 t1]; [discriminate|]. intro H. injection H as _ _ _ <-.
  exists (B "{^" ++ pa ++ B "}"). split; [rewrite St, E; cbn [B list_ascii_of_string app]; rewrite <- ?app_assoc; reflexivity|].
  exists pa. right. left. split; [reflexivity|]. split; apply (negb_in _ _ _ F); reflexivity.
Qed.

Lemma quoted_split s : forall a b, quoted s = Some (a, b) -> s = a ++ DQ :: b.
Proof.
  assert (H : forall n s, length s <= n -> forall a b, quoted s = Some (a, b) -> s = a ++ DQ :: b).
  { clear s. induction n as [|n IH]; intros [|c s] L a b; cbn [quoted length] in *; try discriminate; try lia.
    destruct (ceq c DQ) eqn:C; [intro H; injection H as <- <-; apply ceq_eq in C; subst c; reflexivity|]. destruct (ceq c BS).
    - destruct s as [|d s]; [discriminate|]. destruct (quoted s) as [[x y]|] eqn:Q; [|discriminate]. intro H. injection H as <- <-. cbn [length] in L.
      rewrite (IH s ltac:(lia) x y Q). reflexivity.
    - destruct (quoted s) as [[x y]|] eqn:Q; [|discriminate]. intro H. injection H as <- <-. rewrite (IH s ltac:(lia) x y Q) at 1. reflexivity. }
  exact (H (length s) s (le_n _)).
Qed.

Lemma leanpub_shape s item sub p rest : leanpub s = Some (item, sub, p, rest) -> exists w, s = w ++ rest /\ entry_shape w.
Proof.
  unfold leanpub. destruct (length s <=? 4); [discriminate|]. destruct (starts (B "{i:") s) eqn:St; [|discriminate]. cbn [negb].
  apply starts_split in St. change (length (B "{i:")) with 3 in St. destruct (snd_split gap (skipn 3 s)) as (a & Ea & _). rewrite Ea in St. clear Ea.
  destruct (snd (span gap (skipn 3 s))) as [|c r]; [discriminate|]. cbv zeta.
  assert (Close : forall x it sb y, c :: r = x ++ y ->
    match snd (span gap y) with [] => None | d :: rest0 => if ceq d "}" then Some (it, sb, false, rest0) else None end = Some (item, sub, p, rest) ->
    exists w, s = w ++ rest /\ entry_shape w).
  { intros x it sb y E H. destruct (snd_split gap y) as (b & Eb & _). destruct (snd (span gap y)) as [|d q]; [discriminate H|].
    destruct (ceq d "}") eqn:D; [|discriminate H]. apply ceq_eq in D. subst d. injection H as _ _ _ <-.
    exists (B "{i:" ++ (a ++ x ++ b) ++ B "}"). split; [|eexists; right; right; reflexivity].
    rewrite St, E, Eb. cbn [B list_ascii_of_string app]. rewrite <- ?app_assoc. reflexivity. }
  destruct (ceq c DQ) eqn:Q.
  - destruct (quoted r) as [[term y]|] eqn:Qd; [|discriminate]. apply quoted_split in Qd.
    destruct (strchr "!" term); apply (Close (c :: term ++ [DQ])); rewrite Qd; cbn [app]; rewrite <- app_assoc; reflexivity.
  - destruct (span _ (c :: r)) as [term y] eqn:Sp. destruct (span_split _ _ _ _ Sp) as (E & _). destruct (forallb valid term); [|discriminate]. cbn [negb].
    destruct y as [|d y]; [discriminate|]. destruct (negb (ceq d "}")); [discriminate|]. destruct (trim term); [discriminate|]. apply (Close term). exact E.
Qed.

Lemma parsed_shape o rb s item sub p rest : parsed o rb s = Some (item, sub, p, rest) -> exists w, s = w ++ rest /\ entry_shape w.
Proof.
  unfold parsed. destruct (if o_mmark o then mmark s else None) as [f|] eqn:E1.
  - intro H. injection H as ->. destruct (o_mmark o); [|discriminate E1]. exact (mmark_shape _ _ _ _ _ E1).
  - destruct (if o_textindex o then textindex rb s else None) as [f|] eqn:E2.
    + intro H. injection H as ->. destruct (o_textindex o); [|discriminate E2]. exact (textindex_shape _ _ _ _ _ _ E2).
    + destruct (o_leanpub o && (4 <=? length s)); [|discriminate]. apply leanpub_shape.
Qed.

Lemma shape_length w : entry_shape w -> 3 <= length w.
Proof. intros [x [[-> _]|[[-> _]| ->]]]; rewrite !app_length; cbn [length B list_ascii_of_string]; lia. Qed.

Lemma taken (w rest : str) : firstn (length (w ++ rest) - length rest) (w ++ rest) = w.
Proof. apply take_front. rewrite app_length. lia. Qed.

Lemma go_marked o : forall fuel rb s b reg, length s < fuel -> sound b ->
  exists t l new, go fuel o rb s b reg = Out (b_out b ++ t) (Registry (new ++ r_entries reg) (r_next reg + length l))
    /\ Marked (r_next reg) (length rb) s t l /\ map (fun e => (e_id e, e_pos e)) (rev new) = l.
Proof.
  induction fuel as [|fuel IH]; intros rb s b reg L Sb; [lia|]. destruct s as [|c s]; cbn [go].
  - rewrite (sound_end _ Sb). exists [], [], []. rewrite app_nil_r. cbn [length app]. rewrite Nat.add_0_r. destruct reg. split; [reflexivity|]. split; [constructor|reflexivity].
  - destruct (parsed o rb (c :: s)) as [[[[item sub] p] rest]|] eqn:P.
    + destruct (parsed_shape _ _ _ _ _ _ _ P) as (w & Ew & Sh). pose proof (shape_length w Sh) as Lw. rewrite Ew, taken.
      destruct (print_sound (marker (r_next reg)) b Sb) as [Sb' Eb].
      destruct (IH (rev w ++ rb) rest (print (marker (r_next reg)) b) (Registry (Entry item sub p (length rb) (r_next reg) :: r_entries reg) (S (r_next reg)))) as (t & l & new & E & M & Ids);
        [apply (f_equal (@length ascii)) in Ew; rewrite app_length in Ew; cbn [length] in *; lia|exact Sb'|].
      rewrite E, Eb. cbn [r_next r_entries] in *. exists (mark_of (r_next reg) ++ t), ((r_next reg, length rb) :: l), (new ++ [Entry item sub p (length rb) (r_next reg)]).
      rewrite <- !app_assoc. cbn [app length]. rewrite Nat.add_succ_r. split; [reflexivity|]. split.
      * constructor; [exact Sh|]. rewrite app_length, rev_length, Nat.add_comm in M. exact M.
      * rewrite rev_app_distr. cbn [rev app map e_id e_pos]. rewrite Ids. reflexivity.
    + destruct (copy_sound c b Sb) as [Sb' Eb]. destruct (IH (c :: rb) s (copy c b) reg) as (t & l & new & E & M & Ids); [cbn [length] in L; lia|exact Sb'|].
      rewrite E, Eb. exists (c :: t), l, new. rewrite <- app_assoc. split; [reflexivity|]. split; [constructor; exact M|exact Ids].
Qed.

Lemma quick_nonempty o text : quick o text = true -> text <> [].
Proof. intros H ->. unfold quick in H. cbn [occurs] in H. rewrite ?Bool.andb_false_r in H. cbn in H. rewrite ?Bool.andb_false_r in H. discriminate H. Qed.

Lemma start_sound (text : str) : text <> [] -> sound (Buf (length text * 2) [] false).
Proof. intro N. split; [reflexivity|]. cbn [b_out b_cap length]. destruct text; [congruence|]. cbn [length]. lia. Qed.

Lemma process_marked o text reg : process o text reg = Same \/
  exists t l new, process o text reg = Out t (Registry (new ++ r_entries reg) (r_next reg + length l)) /\ Marked (r_next reg) 0 text t l /\ map (fun e => (e_id e, e_pos e)) (rev new) = l.
Proof.
  unfold process. destruct (quick o text) eqn:Q; [|left; reflexivity]. right.
  exact (go_marked o (S (length text)) [] text (Buf (length text * 2) [] false) reg (Nat.lt_succ_diag_r _) (start_sound _ (quick_nonempty _ _ Q))).
Qed.

(** ** The documented forms *)
Definition all_on : syntaxes := Syntaxes true true true.

Definition term_b (c : ascii) : bool := isalnum c || existsb (ceq c) (B " -_/.:;'" ++ [DQ]).
Lemma term_bool c : term_byte c -> term_b c = true.
Proof.
  intros [H|H]; unfold term_b; [rewrite H; reflexivity|]. apply Bool.orb_true_iff. right. apply existsb_exists. exists c. split; [exact H|apply ceq_refl].
Qed.

Lemma term_facts c : term_byte c -> valid c = true /\ c <> ","%char /\ c <> ")"%char /\ c <> "!"%char /\ c <> "}"%char /\ c <> NL.
Proof.
  intro H. apply term_bool in H. pose proof (byte_forall (fun c => implb (term_b c) (valid c && negb (ceq c ",") && negb (ceq c ")") && negb (ceq c "!") && negb (ceq c "}") && negb (ceq c NL))) eq_refl c) as G.
  cbv beta in G. rewrite H in G. cbn [implb] in G. rewrite !Bool.andb_true_iff, !Bool.negb_true_iff in G. destruct G as (((((G1 & G2) & G3) & G4) & G5) & G6).
  rewrite !ceq_neq in *. tauto.
Qed.

Lemma sub_facts c : term_byte c \/ c = ","%char -> valid c = true /\ c <> ")"%char /\ c <> "}"%char /\ c <> NL.
Proof. intros [H| ->]; [apply term_facts in H; tauto|]. repeat split; discriminate. Qed.

Lemma solid_nonempty x : solid x -> x <> [].
Proof. intros [(c & r & -> & _) _]. discriminate. Qed.

Lemma not_comma_close c : c <> ","%char -> c <> ")"%char -> negb (ceq c ",") && negb (ceq c ")") = true.
Proof. intros H1 H2. apply ceq_neq in H1, H2. rewrite H1, H2. reflexivity. Qed.

Lemma item_span item e c r : Forall term_byte item -> spaces e -> c = ","%char \/ c = ")"%char ->
  span (fun c => negb (ceq c ",") && negb (ceq c ")")) ((item ++ e) ++ c :: r) = (item ++ e, c :: r).
Proof.
  intros F Sp C. apply span_word.
  - apply Forall_app. split; [eapply Forall_impl; [|exact F]; intros x X; apply term_facts in X; apply not_comma_close; tauto|].
    eapply Forall_impl; [|exact Sp]. intros x ->. reflexivity.
  - right. exists c, r. split; [reflexivity|]. destruct C as [-> | ->]; reflexivity.
Qed.

Lemma item_valid item e : Forall term_byte item -> spaces e -> forallb (fun c => valid c || ceq c "!") (item ++ e) = true.
Proof.
  intros F Sp. rewrite forallb_app. apply Bool.andb_true_iff. split; apply forallb_forall; intros x X.
  - rewrite Forall_forall in F. destruct (term_facts x (F x X)) as (-> & _). reflexivity.
  - unfold spaces in Sp. rewrite Forall_forall in Sp. rewrite (Sp x X). reflexivity.
Qed.

Lemma mmark_front (p : bool) item z : solid item -> Forall term_byte item -> z <> [] ->
  let s := B "(!" ++ (if p then B "!" else []) ++ item ++ z in
  (length s <=? 3) = false /\ starts (B "(!") s = true /\ ceq (at_ s 2) "!" = p /\ skipn (if p then 3 else 2) s = item ++ z.
Proof.
  intros Si F Z. destruct Si as [(c & r & -> & _) _]. destruct z as [|z0 z]; [congruence|]. inversion F as [|? ? Fc _]; subst. apply term_facts in Fc.
  cbv zeta. split; [apply Nat.leb_gt; rewrite !app_length; destruct p; cbn [length B list_ascii_of_string]; lia|]. split; [apply starts_app|].
  destruct p; cbn [B list_ascii_of_string app at_ nth skipn]; (split; [|reflexivity]); [reflexivity|]. apply ceq_neq. tauto.
Qed.

Lemma mmark_plain (p : bool) item e s : solid item -> Forall term_byte item -> spaces e ->
  mmark (B "(!" ++ (if p then B "!" else []) ++ item ++ e ++ B ")" ++ s) = Some (item, None, p, s).
Proof.
  intros Si F Sp. destruct (mmark_front p item (e ++ B ")" ++ s) Si F) as (H1 & H2 & H3 & H4); [destruct e; discriminate|]. unfold mmark. rewrite H1, H2, H3, H4. cbn [negb].
  change (B ")" ++ s) with (")"%char :: s). rewrite app_assoc, item_span by auto. rewrite item_valid by assumption. cbn [negb].
  rewrite trim_tail by (try apply spaces_white; assumption). pose proof (solid_nonempty _ Si). destruct item; [congruence|]. reflexivity.
Qed.

Lemma sub_span sub e s : Forall (fun c => term_byte c \/ c = ","%char) sub -> spaces e ->
  span (fun c => negb (ceq c ")")) ((sub ++ e) ++ ")"%char :: s) = (sub ++ e, ")"%char :: s) /\ forallb valid (sub ++ e) = true.
Proof.
  intros F Sp. split.
  - apply span_word; [|right; eexists _, _; split; [reflexivity|reflexivity]]. apply Forall_app. split.
    + eapply Forall_impl; [|exact F]. intros x X. apply sub_facts in X. destruct X as (_ & X & _). apply ceq_neq in X. rewrite X. reflexivity.
    + eapply Forall_impl; [|exact Sp]. intros x ->. reflexivity.
  - rewrite forallb_app. apply Bool.andb_true_iff. split; apply forallb_forall; intros x X.
    + rewrite Forall_forall in F. destruct (sub_facts x (F x X)) as (-> & _). reflexivity.
    + unfold spaces in Sp. rewrite Forall_forall in Sp. rewrite (Sp x X). reflexivity.
Qed.

Lemma mmark_sub (p : bool) item e a sub e' s : solid item -> Forall term_byte item -> spaces e -> whites a ->
  solid sub -> Forall (fun c => term_byte c \/ c = ","%char) sub -> spaces e' ->
  mmark (B "(!" ++ (if p then B "!" else []) ++ item ++ e ++ B "," ++ a ++ sub ++ e' ++ B ")" ++ s) = Some (item, Some sub, p, s).
Proof.
  intros Si F Sp Wa Ss Fs Sp'. destruct (mmark_front p item (e ++ B "," ++ a ++ sub ++ e' ++ B ")" ++ s) Si F) as (H1 & H2 & H3 & H4); [destruct e; discriminate|].
  unfold mmark. rewrite H1, H2, H3, H4. cbn [negb].
  change (B "," ++ a ++ sub ++ e' ++ B ")" ++ s) with (","%char :: a ++ sub ++ e' ++ B ")" ++ s). rewrite app_assoc, item_span by auto. rewrite item_valid by assumption. cbn [negb].
  rewrite trim_tail by (try apply spaces_white; assumption). pose proof (solid_nonempty _ Si). destruct item as [|i0 i1]; [congruence|]. rewrite ceq_refl.
  assert (span isspace (a ++ sub ++ e' ++ B ")" ++ s) = (a, sub ++ e' ++ B ")" ++ s)) as ->.
  { destruct Ss as [(c & r & -> & C) _]. cbn [app]. apply span_white; assumption. }
  cbn [snd]. change (B ")" ++ s) with (")"%char :: s). destruct (sub_span sub e' s Fs Sp') as [E1 E2]. rewrite (app_assoc sub), E1, E2. cbn [negb].
  rewrite trim_tail by (try apply spaces_white; assumption). pose proof (solid_nonempty _ Ss). destruct sub; [congruence|]. reflexivity.
Qed.

(** *** TextIndex *)
Lemma params_exact p sub : Params p sub -> params_sub p = sub.
Proof.
  intros [q N1 N2|q c a x b N1 N2 C Wa Sx Wb]; unfold params_sub.
  - replace q with (q ++ []) by apply app_nil_r. rewrite span_word; [reflexivity| |left; reflexivity].
    apply Forall_forall. intros y Y. assert (y <> SP) by congruence. assert (y <> ","%char) by congruence. rewrite (proj2 (ceq_neq _ _)), (proj2 (ceq_neq _ _)) by assumption. reflexivity.
  - rewrite span_word.
    + cbn [snd]. assert (span isspace (a ++ x ++ b) = (a, x ++ b)) as ->. { destruct Sx as [(d & r & -> & D) _]. cbn [app]. apply span_white; assumption. }
      cbn [snd]. pose proof (solid_nonempty _ Sx). destruct (x ++ b) as [|y z] eqn:E; [destruct x; [congruence|discriminate E]|]. rewrite <- E, trim_tail by assumption. reflexivity.
    + apply Forall_forall. intros y Y. assert (y <> SP) by congruence. assert (y <> ","%char) by congruence. rewrite (proj2 (ceq_neq _ _)), (proj2 (ceq_neq _ _)) by assumption. reflexivity.
    + right. eexists _, _. split; [reflexivity|]. destruct C as [-> | ->]; reflexivity.
Qed.

Lemma textindex_at rb params sub term s : ~ In "}"%char params -> ~ In NL params -> Params params sub ->
  (match bracketed rb with [] => phrase rb | t => t end) = term -> term <> [] -> textindex rb (B "{^" ++ params ++ B "}" ++ s) = Some (term, sub, false, s).
Proof.
  intros N1 N2 P T N. unfold textindex. replace (length _ <=? 2) with false by (symmetry; apply Nat.leb_gt; rewrite !app_length; cbn [length B list_ascii_of_string]; lia).
  rewrite starts_app. cbn [negb]. rewrite (skip_front (B "{^")) by reflexivity. change (B "}" ++ s) with ("}"%char :: s). rewrite span_word.
  - rewrite ceq_refl. cbn [negb]. rewrite T. destruct term; [congruence|]. rewrite (params_exact _ _ P). reflexivity.
  - apply Forall_forall. intros y Y. rewrite (proj2 (ceq_neq y "}")), (proj2 (ceq_neq y NL)) by congruence. reflexivity.
  - right. eexists _, _. split; reflexivity.
Qed.

Lemma bracket_term before term : solid term -> ~ In "["%char term -> length term < 200 -> bracketed (rev (before ++ B "[" ++ term ++ B "]")) = term.
Proof.
  intros St N L. unfold bracketed. rewrite !rev_app_distr. cbn [rev B list_ascii_of_string app]. rewrite <- !app_assoc. cbn [app at_ nth]. rewrite ceq_refl.
  change ("]"%char :: rev term ++ "["%char :: rev before) with (("]"%char :: rev term) ++ "["%char :: rev before). rewrite (strchr_at "[" ("]"%char :: rev term)) by (intros [A|A]; [discriminate A|apply in_rev in A; contradiction]).
  cbn [length]. rewrite rev_length. destruct term as [|t0 t1] eqn:ET; [destruct St as [(? & ? & A & _) _]; discriminate A|]. rewrite <- ET in *.
  assert (1 <= length term) by (rewrite ET; cbn [length]; lia).
  replace (S (length term) <=? 200) with true by (symmetry; apply Nat.leb_le; lia). replace (2 <=? S (length term)) with true by (symmetry; apply Nat.leb_le; lia).
  replace (S (length term) - 1) with (length term) by lia. replace (length term <? 200) with true by (symmetry; apply Nat.ltb_lt; lia). cbn [andb skipn app].
  rewrite take_front by (rewrite rev_length; reflexivity). rewrite rev_involutive. apply trim_self. exact St.
Qed.

Lemma phrase_bool c : phrase_byte c <-> isalnum c || ceq c SP || ceq c "-" || ceq c "_" = true.
Proof. unfold phrase_byte. rewrite !Bool.orb_true_iff, !ceq_eq. tauto. Qed.

Lemma word_term before term : solid term -> Forall phrase_byte term -> length term <= 50 ->
  (before = [] \/ exists b c, before = b ++ [c] /\ ~ phrase_byte c) -> bracketed (rev (before ++ term)) = [] /\ phrase (rev (before ++ term)) = term.
Proof.
  intros St F L Bf. pose proof St as [_ (d & q & Eq & D)]. split.
  - unfold bracketed. rewrite Eq, rev_app_distr, rev_app_distr. cbn [rev app at_ nth]. destruct (ceq d "]") eqn:C; [|reflexivity]. apply ceq_eq in C. subst d.
    rewrite Eq in F. apply Forall_app in F. destruct F as [_ F]. inversion F as [|? ? [A|[A|[A|A]]] _]; discriminate A.
  - unfold phrase. rewrite rev_app_distr. assert (span isspace (rev term ++ rev before) = ([], rev term ++ rev before)) as ->.
    { rewrite Eq, rev_app_distr. cbn [rev app span]. rewrite D. reflexivity. }
    cbn [snd]. rewrite firstn_app, rev_length. rewrite (firstn_all2 (rev term)) by (rewrite rev_length; exact L).
    rewrite span_word.
    + cbn [fst]. rewrite rev_involutive. apply trim_self. exact St.
    + apply Forall_rev. eapply Forall_impl; [|exact F]. intros x X. apply phrase_bool. exact X.
    + destruct Bf as [-> |(b & c & -> & N)]; [left; cbn [rev]; apply firstn_nil|]. rewrite rev_app_distr. cbn [rev app].
      destruct (50 - length term); [left; reflexivity|]. right. eexists _, _. split; [reflexivity|]. apply bool_false. rewrite <- phrase_bool. exact N.
Qed.

(** *** Leanpub *)
Lemma blanks_gap a c r : blanks a -> gap c = false -> span gap (a ++ c :: r) = (a, c :: r).
Proof.
  intros Bl N. apply span_word; [|right; eexists _, _; split; [reflexivity|exact N]]. eapply Forall_impl; [|exact Bl]. intros x [-> | ->]; reflexivity.
Qed.

Lemma solid_gap c : isspace c = false -> gap c = false.
Proof. intro H. pose proof (byte_forall (fun c => implb (negb (isspace c)) (negb (gap c))) eq_refl c) as G. cbv beta in G. rewrite H in G. apply Bool.negb_true_iff. exact G. Qed.

Lemma leanpub_front a c r : blanks a -> gap c = false -> 1 <= length r ->
  (length (B "{i:" ++ a ++ c :: r) <=? 4) = false /\ starts (B "{i:") (B "{i:" ++ a ++ c :: r) = true /\ snd (span gap (skipn 3 (B "{i:" ++ a ++ c :: r))) = c :: r.
Proof.
  intros Bl G L. split; [apply Nat.leb_gt; rewrite !app_length; cbn [length B list_ascii_of_string]; lia|]. split; [apply starts_app|].
  rewrite (skip_front (B "{i:")) by reflexivity. rewrite blanks_gap by assumption. reflexivity.
Qed.

Lemma leanpub_plain a term e s : blanks a -> solid term -> Forall (fun c => term_byte c \/ c = ","%char) term -> ~ (exists r, term = DQ :: r) -> spaces e ->
  leanpub (B "{i:" ++ a ++ term ++ e ++ B "}" ++ s) = Some (term, None, false, s).
Proof.
  intros Bl St F ND Sp. pose proof St as [(c & r & Ec & C) _]. assert (Q : c <> DQ) by (intros ->; apply ND; exists r; exact Ec).
  destruct (leanpub_front a c (r ++ e ++ B "}" ++ s) Bl (solid_gap c C)) as (H1 & H2 & H3); [rewrite !app_length; cbn [length B list_ascii_of_string]; lia|].
  unfold leanpub. rewrite Ec. cbn [app] in *. rewrite H1, H2, H3. cbn [negb]. rewrite (proj2 (ceq_neq c DQ) Q). cbv zeta.
  replace (c :: r ++ e ++ B "}" ++ s) with ((term ++ e) ++ "}"%char :: s) by (rewrite Ec; cbn [app B list_ascii_of_string]; rewrite <- app_assoc; reflexivity).
  rewrite span_word.
  - assert (forallb valid (term ++ e) = true) as ->.
    { rewrite forallb_app. apply Bool.andb_true_iff. split; apply forallb_forall; intros x X.
      - rewrite Forall_forall in F. destruct (sub_facts x (F x X)) as (-> & _). reflexivity.
      - unfold spaces in Sp. rewrite Forall_forall in Sp. rewrite (Sp x X). reflexivity. }
    cbn [negb]. rewrite ceq_refl. cbn [negb]. rewrite trim_tail by (try apply spaces_white; assumption). rewrite Ec. cbn [span]. change (gap "}") with false. cbn [snd]. rewrite ceq_refl. reflexivity.
  - apply Forall_app. split.
    + eapply Forall_impl; [|exact F]. intros x X. apply sub_facts in X. rewrite (proj2 (ceq_neq x "}")), (proj2 (ceq_neq x NL)) by tauto. reflexivity.
    + eapply Forall_impl; [|exact Sp]. intros x ->. reflexivity.
  - right. eexists _, _. split; reflexivity.
Qed.

Lemma quoted_at t s : Forall (fun c => c <> BS /\ c <> DQ) t -> quoted (t ++ DQ :: s) = Some (t, s).
Proof.
  induction 1 as [|c t [N1 N2] F IH]; cbn [app quoted]; [rewrite ceq_refl; reflexivity|]. rewrite (proj2 (ceq_neq c DQ) N2), (proj2 (ceq_neq c BS) N1), IH. reflexivity.
Qed.

Lemma strip_none t : ~ In "*"%char t -> strip t = t.
Proof.
  induction t as [|c t IH]; intro N; cbn [strip]; [reflexivity|]. rewrite (proj2 (ceq_neq c "*")) by (intros ->; apply N; left; reflexivity).
  rewrite IH; [reflexivity|]. intro I. apply N. right. exact I.
Qed.

Lemma close_gap e s : blanks e -> snd (span gap (e ++ B "}" ++ s)) = "}"%char :: s.
Proof. intro Bl. change (B "}" ++ s) with ("}"%char :: s). rewrite blanks_gap; [reflexivity|exact Bl|reflexivity]. Qed.

Lemma leanpub_quoted a term e s : blanks a -> solid term -> Forall (fun c => ~ In c (B "!*\" ++ [DQ])) term -> blanks e ->
  leanpub (B "{i:" ++ a ++ [DQ] ++ term ++ [DQ] ++ e ++ B "}" ++ s) = Some (term, None, false, s).
Proof.
  intros Ba St F Be. destruct (leanpub_front a DQ (term ++ [DQ] ++ e ++ B "}" ++ s) Ba eq_refl) as (H1 & H2 & H3); [rewrite !app_length; cbn [length B list_ascii_of_string]; lia|].
  unfold leanpub. cbn [app] in *. rewrite H1, H2, H3. cbn [negb]. rewrite ceq_refl. rewrite Forall_forall in F. rewrite quoted_at.
  - rewrite strchr_absent by (intro I; apply (F _ I); left; reflexivity). rewrite strip_none by (intro I; apply (F _ I); right; left; reflexivity).
    rewrite trim_self by exact St. rewrite close_gap by exact Be. rewrite ceq_refl. reflexivity.
  - apply Forall_forall. intros c I. specialize (F c I). split; intros ->; apply F; [do 2 right|do 3 right]; left; reflexivity.
Qed.

Lemma leanpub_quoted_sub a term sub e s : blanks a -> solid term -> Forall (fun c => ~ In c (B "!*\" ++ [DQ])) term -> solid sub -> Forall (fun c => ~ In c (B "*\" ++ [DQ])) sub -> blanks e ->
  leanpub (B "{i:" ++ a ++ [DQ] ++ term ++ B "!" ++ sub ++ [DQ] ++ e ++ B "}" ++ s) = Some (term, Some sub, false, s).
Proof.
  intros Ba St F Ss Fs Be. destruct (leanpub_front a DQ (term ++ B "!" ++ sub ++ [DQ] ++ e ++ B "}" ++ s) Ba eq_refl) as (H1 & H2 & H3); [rewrite !app_length; cbn [length B list_ascii_of_string]; lia|].
  unfold leanpub. cbn [app] in *. rewrite H1, H2, H3. cbn [negb]. rewrite ceq_refl. rewrite Forall_forall in F, Fs.
  replace (term ++ B "!" ++ sub ++ DQ :: e ++ B "}" ++ s) with ((term ++ "!"%char :: sub) ++ DQ :: e ++ B "}" ++ s) by (rewrite <- app_assoc; reflexivity). rewrite quoted_at.
  - rewrite strchr_at by (intro I; apply (F _ I); left; reflexivity). rewrite take_front by reflexivity.
    replace (skipn (S (length term)) (term ++ "!"%char :: sub)) with sub by (change ("!"%char :: sub) with (B "!" ++ sub); rewrite app_assoc; symmetry; apply skip_front; rewrite app_length; cbn; lia).
    rewrite !trim_self by assumption. rewrite !strip_none by (intro I; (apply (F _ I); right; left; reflexivity) || (apply (Fs _ I); left; reflexivity)).
    rewrite close_gap by exact Be. rewrite ceq_refl. reflexivity.
  - apply Forall_forall. intros c I. apply in_app_or in I. destruct I as [I|[<-|I]].
    + specialize (F c I). split; intros ->; apply F; [do 2 right|do 3 right]; left; reflexivity.
    + split; discriminate.
    + specialize (Fs c I). split; intros ->; apply Fs; [do 1 right|do 2 right]; left; reflexivity.
Qed.

Lemma brace_mmark s : mmark ("{"%char :: s) = None.
Proof. unfold mmark. destruct (_ <=? 3); reflexivity. Qed.

Lemma leanpub_textindex rb s : textindex rb (B "{i:" ++ s) = None.
Proof. unfold textindex. destruct (_ <=? 2); reflexivity. Qed.

Lemma form_parsed before w item sub p s : Form before w item sub p -> parsed all_on (rev before) (w ++ s) = Some (item, sub, p, s).
Proof.
  assert (T : forall rb f, textindex rb (B "{^" ++ f) = textindex rb ("{"%char :: B "^" ++ f)) by reflexivity.
  intro F. destruct F; unfold parsed, all_on; cbn [o_mmark o_textindex o_leanpub andb]; rewrite <- ?app_assoc.
  - rewrite mmark_plain by assumption. reflexivity.
  - rewrite mmark_sub by assumption. reflexivity.
  - change (mmark (B "{^" ++ ?x)) with (mmark ("{"%char :: "^"%char :: x)). rewrite brace_mmark.
    rewrite (textindex_at _ params sub term s); [reflexivity|assumption..| |apply solid_nonempty; assumption]. rewrite bracket_term by assumption. pose proof (solid_nonempty _ H). now destruct term.
  - change (mmark (B "{^" ++ ?x)) with (mmark ("{"%char :: "^"%char :: x)). rewrite brace_mmark.
    destruct (word_term before term H H0 H1 H2) as [E1 E2]. rewrite (textindex_at _ params sub term s); [reflexivity|assumption..| |apply solid_nonempty; assumption]. rewrite E1. exact E2.
  - change (mmark (B "{i:" ++ ?x)) with (mmark ("{"%char :: "i"%char :: ":"%char :: x)). rewrite brace_mmark, leanpub_textindex.
    replace (4 <=? length _) with true by (symmetry; apply Nat.leb_le; pose proof (solid_nonempty _ H0); destruct term; [congruence|]; rewrite !app_length; cbn [length B list_ascii_of_string]; lia).
    apply leanpub_plain; assumption.
  - change (mmark (B "{i:" ++ ?x)) with (mmark ("{"%char :: "i"%char :: ":"%char :: x)). rewrite brace_mmark, leanpub_textindex.
    replace (4 <=? length _) with true by (symmetry; apply Nat.leb_le; rewrite !app_length; cbn [length B list_ascii_of_string]; lia).
    apply leanpub_quoted; assumption.
  - change (mmark (B "{i:" ++ ?x)) with (mmark ("{"%char :: "i"%char :: ":"%char :: x)). rewrite brace_mmark, leanpub_textindex.
    replace (4 <=? length _) with true by (symmetry; apply Nat.leb_le; rewrite !app_length; cbn [length B list_ascii_of_string]; lia).
    apply leanpub_quoted_sub; assumption.
Qed.

Lemma opener_none m s : (forall r, s <> m ++ r) -> starts m s = false.
Proof. intro N. apply bool_false. intro H. apply starts_spec in H. destruct H as [r E]. exact (N r E). Qed.

Lemma no_opener_parsed o rb s : no_opener s -> parsed o rb s = None.
Proof.
  intro N. unfold no_opener in N. rewrite Forall_forall in N.
  pose proof (opener_none _ _ (N _ (or_introl eq_refl))) as N1. pose proof (opener_none _ _ (N _ (or_intror (or_introl eq_refl)))) as N2.
  pose proof (opener_none _ _ (N _ (or_intror (or_intror (or_introl eq_refl))))) as N3.
  unfold parsed, mmark, textindex, leanpub. rewrite N1, N2, N3. cbn [negb].
  destruct (o_mmark o), (o_textindex o), (o_leanpub o), (length s <=? 3), (length s <=? 2), (length s <=? 4), (4 <=? length s); reflexivity.
Qed.

Lemma occurs_later n pat a s : n <= length s -> 0 < n -> starts pat s = true -> occurs n pat (a ++ s) = true.
Proof.
  intros L P St. induction a as [|c a IH]; cbn [app].
  - destruct s as [|c s]; [cbn [length] in L; lia|]. cbn [occurs]. rewrite St, (proj2 (Nat.leb_le _ _) L). reflexivity.
  - cbn [occurs]. rewrite IH. apply Bool.orb_true_r.
Qed.

Lemma parsed_quick o rb a s f : parsed o rb s = Some f -> quick o (a ++ s) = true.
Proof.
  unfold parsed, quick. intro H.
  destruct (if o_mmark o then mmark s else None) as [g|] eqn:E1.
  - destruct (o_mmark o); [|discriminate E1]. unfold mmark in E1. destruct (length s <=? 3) eqn:L; [discriminate E1|]. apply Nat.leb_gt in L.
    destruct (starts (B "(!") s) eqn:St; [|discriminate E1]. rewrite (occurs_later 3 _ a s) by (lia || exact St). reflexivity.
  - set (m := o_mmark o && occurs 3 (B "(!") (a ++ s)). destruct m; [reflexivity|]. cbn [negb orb]. rewrite !Bool.andb_true_r. apply Bool.orb_true_iff.
    destruct (if o_textindex o then textindex rb s else None) as [g|] eqn:E2.
    + left. destruct (o_textindex o); [|discriminate E2]. unfold textindex in E2. destruct (length s <=? 2) eqn:L; [discriminate E2|]. apply Nat.leb_gt in L.
      destruct (starts (B "{^") s) eqn:St; [|discriminate E2]. rewrite (occurs_later 2 _ a s) by (lia || exact St). reflexivity.
    + right. destruct (o_leanpub o); [|discriminate H]. destruct (4 <=? length s); [|discriminate H]. cbn [andb] in H. unfold leanpub in H. destruct (length s <=? 4) eqn:L; [discriminate H|]. apply Nat.leb_gt in L.
      destruct (starts (B "{i:") s) eqn:St; [|discriminate H]. rewrite (occurs_later 5 _ a s) by (lia || exact St). reflexivity.
Qed.

Lemma form_length before w item sub p : Form before w item sub p -> 3 <= length w.
Proof. intro F. destruct F; rewrite !app_length; try destruct p; cbn [length B list_ascii_of_string]; try lia; destruct term; try lia; cbn [length]; try lia; destruct H0 as [(? & ? & A & _) _]; discriminate A. Qed.

Lemma go_indexed before n s t l : Indexed before n s t l -> forall fuel b reg, length s < fuel -> sound b -> r_next reg = n ->
  exists new, go fuel all_on (rev before) s b reg = Out (b_out b ++ t) (Registry (new ++ r_entries reg) (n + length l)) /\ map (fun e => (e_item e, e_sub e, e_primary e)) (rev new) = l.
Proof.
  induction 1 as [before n|before n c s t l N I IH|before n w item sub p s t l F I IH]; intros fuel b reg L Sb En; (destruct fuel as [|fuel]; [lia|]); cbn [go].
  - rewrite (sound_end _ Sb). exists []. rewrite app_nil_r. cbn [length app]. rewrite Nat.add_0_r. destruct reg as [re rn]. cbn [r_next r_entries] in *. subst. split; reflexivity.
  - rewrite (no_opener_parsed all_on (rev before) (c :: s) N). destruct (copy_sound c b Sb) as [Sb' Eb]. cbn [length] in L.
    destruct (IH fuel (copy c b) reg ltac:(lia) Sb' En) as (new & E & M). rewrite rev_app_distr in E. cbn [rev app] in E. rewrite E, Eb. exists new. rewrite <- app_assoc. split; [reflexivity|exact M].
  - pose proof (form_length _ _ _ _ _ F) as Lw. destruct (w ++ s) as [|c0 s0] eqn:Ew; [destruct w; [cbn [length] in Lw; lia|discriminate Ew]|]. 
    replace (parsed all_on (rev before) (c0 :: s0)) with (Some (item, sub, p, s)) by (rewrite <- Ew; symmetry; apply form_parsed; exact F). rewrite <- Ew in *. rewrite taken, <- rev_app_distr. destruct (print_sound (marker (r_next reg)) b Sb) as [Sb' Eb]. rewrite app_length in L.
    destruct (IH fuel (print (marker (r_next reg)) b) (Registry (Entry item sub p (length (rev before)) (r_next reg) :: r_entries reg) (S (r_next reg))) ltac:(lia) Sb') as (new & E & M); [cbn [r_next]; congruence|].
    rewrite E, Eb. cbn [r_entries]. exists (new ++ [Entry item sub p (length (rev before)) (r_next reg)]). rewrite <- !app_assoc. cbn [app length]. rewrite Nat.add_succ_r, En. split; [reflexivity|].
    rewrite rev_app_distr. cbn [rev app map e_item e_sub e_primary]. rewrite M. reflexivity.
Qed.

Lemma go_quick o : forall fuel rb s b reg, length s < fuel -> quick o (rev rb ++ s) = false -> sound b -> go fuel o rb s b reg = Out (b_out b ++ s) reg.
Proof.
  induction fuel as [|fuel IH]; intros rb s b reg L Q Sb; [lia|]. destruct s as [|c s]; cbn [go].
  - rewrite (sound_end _ Sb), app_nil_r. reflexivity.
  - destruct (parsed o rb (c :: s)) as [f|] eqn:P; [rewrite (parsed_quick _ _ (rev rb) _ _ P) in Q; discriminate Q|].
    destruct (copy_sound c b Sb) as [Sb' Eb]. cbn [length] in L. rewrite IH; [rewrite Eb, <- app_assoc; reflexivity|lia| |exact Sb'].
    cbn [rev]. rewrite <- app_assoc. exact Q.
Qed.

Lemma process_indexed n text t l reg : Indexed [] n text t l -> r_next reg = n -> l <> [] ->
  exists new, process all_on text reg = Out t (Registry (new ++ r_entries reg) (n + length l)) /\ map (fun e => (e_item e, e_sub e, e_primary e)) (rev new) = l.
Proof.
  intros I En Nl. destruct text as [|c text]; [inversion I; subst; [congruence|]|].
  - match goal with F : Form _ w _ _ _, E : w ++ _ = [] |- _ => apply form_length in F; apply (f_equal (@length ascii)) in E; rewrite app_length in E; cbn [length] in E; lia end.
  - destruct (go_indexed [] n (c :: text) t l I (S (length (c :: text))) (Buf (length (c :: text) * 2) [] false) reg (Nat.lt_succ_diag_r _) (start_sound (c :: text) ltac:(discriminate)) En) as (new & E & M).
    exists new. split; [|exact M]. unfold process. destruct (quick all_on (c :: text)) eqn:Q; [exact E|]. exfalso.
    pose proof (go_quick all_on (S (length (c :: text))) [] (c :: text) (Buf (length (c :: text) * 2) [] false) reg (Nat.lt_succ_diag_r _) Q (start_sound (c :: text) ltac:(discriminate))) as G.
    cbn [rev] in E. rewrite G in E. injection E as _ E. apply (f_equal r_next) in E. cbn [r_next] in E. rewrite En in E. destruct l; [congruence|]. cbn [length] in E. lia.
Qed.

(** ** Marks in HTML *)
Definition pre : str := B "<!--IDX:".

Lemma to_close_plain x s : Forall (fun c => c <> ">"%char /\ c <> "-"%char) x -> to_close (x ++ B "-->" ++ s) = (x, B "-->" ++ s).
Proof.
  induction 1 as [|c x [N1 N2] F IH]; [reflexivity|]. cbn [app to_close]. rewrite (proj2 (ceq_neq c ">") N1).
  replace (starts (B "-->") (c :: x ++ B "-->" ++ s)) with false by (cbn [B list_ascii_of_string starts]; rewrite (proj2 (ceq_neq "-" c)) by congruence; reflexivity).
  cbn [orb]. rewrite IH. reflexivity.
Qed.

Lemma digit_plain c : isdigit c = true -> c <> ">"%char /\ c <> "-"%char /\ c <> "<"%char.
Proof. intro H. repeat split; intros ->; discriminate H. Qed.

Lemma to_close_app x s : Forall (fun c => c <> ">"%char /\ c <> "-"%char) x -> to_close (x ++ s) = (x ++ fst (to_close s), snd (to_close s)).
Proof.
  induction 1 as [|c x [N1 N2] F IH]; [cbn [app]; destruct (to_close s); reflexivity|]. cbn [app to_close]. rewrite (proj2 (ceq_neq c ">") N1).
  replace (starts (B "-->") (c :: x ++ s)) with false by (cbn [B list_ascii_of_string starts]; rewrite (proj2 (ceq_neq "-" c)) by congruence; reflexivity).
  cbn [orb]. rewrite IH. reflexivity.
Qed.

Lemma to_close_name n s : to_close (name_of n ++ B "-->" ++ s) = (name_of n, B "-->" ++ s).
Proof.
  destruct (dec_all_digits n) as [N D]. unfold name_of. destruct (dec n) as [|d ds] eqn:E; [congruence|]. rewrite forallb_forall in D.
  assert (P : Forall (fun c => c <> ">"%char /\ c <> "-"%char) (d :: ds)) by (apply Forall_forall; intros x X; destruct (digit_plain x (D x X)) as (? & ? & ?); auto).
  pose proof (to_close_plain (d :: ds) s P) as T. inversion P as [|? ? [_ Nd] _]; subst.
  rewrite <- app_assoc. change (B "idxref-") with (B "idxref" ++ B "-"). rewrite <- !app_assoc.
  rewrite (to_close_app (B "idxref")) by (repeat constructor; discriminate).
  change (B "-" ++ (d :: ds) ++ B "-->" ++ s) with ("-"%char :: (d :: ds) ++ B "-->" ++ s).
  assert (Cd : starts (B "-->") ("-"%char :: (d :: ds) ++ B "-->" ++ s) = false).
  { cbn [app B list_ascii_of_string starts]. rewrite (proj2 (ceq_neq "-" d)) by congruence. reflexivity. }
  cbn [to_close]. rewrite Cd. change (ceq "-" ">") with false. cbn [orb]. rewrite T. reflexivity.
Qed.

Lemma anchored_spans s t l : Anchored s t l -> forall fuel b, length s < fuel -> sound b -> spans fuel s b = Page (b_out b ++ t).
Proof.
  induction 1 as [|c s t l N A IH|n s t l Ln A IH]; intros fuel b L Sb; (destruct fuel as [|fuel]; [lia|]).
  - cbn [spans]. rewrite (sound_end _ Sb), app_nil_r. reflexivity.
  - cbn [spans]. destruct (starts (B "<!--IDX:") (c :: s)) eqn:St; [apply starts_spec in St; contradiction|]. destruct (copy_sound c b Sb) as [Sb' Eb]. cbn [length] in L.
    rewrite IH by (lia || exact Sb'). rewrite Eb, <- app_assoc. reflexivity.
  - assert (L8 : 8 <= length (mark_of n)) by (unfold mark_of; rewrite !app_length; cbn [length B list_ascii_of_string]; lia). rewrite app_length in L.
    destruct (mark_of n ++ s) as [|c0 s0] eqn:E; [destruct (mark_of n); [cbn [length] in L8; lia|discriminate E]|]. cbn [spans]. rewrite <- E.
    unfold mark_of at 1 2. rewrite <- !app_assoc, starts_app. rewrite (skip_front (B "<!--IDX:")) by reflexivity. rewrite to_close_name, starts_app. cbn [andb].
    rewrite (proj2 (Nat.ltb_lt _ _) Ln). rewrite (skip_front (B "-->")) by reflexivity. destruct (print_sound (span_html (name_of n)) b Sb) as [Sb' Eb].
    rewrite IH by (lia || exact Sb'). rewrite Eb, <- app_assoc. reflexivity.
Qed.

Lemma render_anchored s t l : Anchored s t l -> s <> [] -> render s = Page t.
Proof. intros A N. unfold render. rewrite (anchored_spans _ _ _ A) by (lia || now apply start_sound). reflexivity. Qed.

(** A mark that is not closed *)
Definition unclosed (s : str) : Prop := open_mark s.

Lemma unclosed_later a s : unclosed s -> unclosed (a ++ s).
Proof. intros (x & r & -> & N). exists (a ++ x), r. rewrite <- app_assoc. auto. Qed.

Lemma unclosed_behind u v : unclosed (u ++ ">"%char :: v) -> unclosed v.
Proof.
  intros (a & r & E & N). destruct (Nat.le_gt_cases (length a) (length u)) as [L|L].
  - exfalso. assert (E' : a ++ (pre ++ r) = u ++ ">"%char :: v) by (symmetry; exact E). symmetry in E'. destruct (app_split _ _ _ _ E' L) as (e & _ & E2).
    assert (I : In ">"%char (pre ++ r)) by (rewrite E2; apply in_or_app; right; left; reflexivity).
    apply in_app_or in I. destruct I as [I|I]; [|contradiction]. cbn in I. repeat destruct I as [I|I]; try discriminate I. contradiction.
  - change (u ++ ">"%char :: v) with (u ++ B ">" ++ v) in E. rewrite app_assoc in E. symmetry in E. destruct (app_split _ _ _ _ E) as (e & -> & E2); [rewrite app_length; cbn; lia|]. exists e, r. auto.
Qed.

Lemma unclosed_step c s : starts pre (c :: s) = false -> unclosed (c :: s) -> unclosed s.
Proof.
  intros St (a & r & E & N). destruct a as [|x a]; [cbn [app] in E; rewrite E, starts_app in St; discriminate St|]. injection E as -> ->. exists a, r. auto.
Qed.

Lemma to_close_split s : forall id p, to_close s = (id, p) -> s = id ++ p /\ ~ In ">"%char id /\ (p = [] \/ (exists q, p = ">"%char :: q) \/ exists q, p = B "-->" ++ q).
Proof.
  induction s as [|c s IH]; intros id p; cbn [to_close].
  - intro H. injection H as <- <-. auto.
  - destruct (ceq c ">") eqn:C.
    + cbn [orb]. intro H. injection H as <- <-. apply ceq_eq in C. subst c. split; [reflexivity|]. split; [intros []|]. right. left. eauto.
    + cbn [orb]. destruct (starts (B "-->") (c :: s)) eqn:St.
      * intro H. injection H as <- <-. apply starts_spec in St. split; [reflexivity|]. split; [intros []|]. auto.
      * destruct (to_close s) as [a b] eqn:T. intro H. injection H as <- <-. destruct (IH a b eq_refl) as (-> & N & Q). split; [reflexivity|]. split; [|exact Q].
        intros [->|I]; [discriminate C|contradiction].
Qed.

Lemma spans_over : forall fuel s b, length s < fuel -> sound b -> (unclosed s -> spans fuel s b = Over) /\ (~ unclosed s -> exists t, spans fuel s b = Page t).
Proof.
  induction fuel as [|fuel IH]; intros s b L Sb; [lia|]. destruct s as [|c s]; cbn [spans].
  - rewrite (sound_end _ Sb). split; [intros (a & r & E & _); destruct a; discriminate E|eauto].
  - destruct (starts (B "<!--IDX:") (c :: s)) eqn:St.
    + apply starts_split in St. change (length (B "<!--IDX:")) with 8 in St. set (x := skipn 8 (c :: s)) in *. destruct (to_close x) as [id p] eqn:T.
      destruct (to_close_split _ _ _ T) as (Ex & Nid & P). rewrite Ex in St. rewrite St in *. clear T Ex. fold pre in *. clearbody x. clear x St.
      rewrite !app_length in L. change (length pre) with 8 in L.
      destruct P as [-> |[(q & ->)|(q & ->)]].
      * cbn [starts andb B list_ascii_of_string]. split; [reflexivity|]. intro N. exfalso. apply N. exists [], id. rewrite app_nil_r. auto.
      * assert (starts (B "-->") (">"%char :: q) = false) as -> by reflexivity. cbn [andb]. destruct (copy_sound ">" b Sb) as [Sb' _]. cbn [length] in L.
        destruct (IH q (copy ">" b) ltac:(lia) Sb') as [I1 I2]. rewrite app_assoc. split; intro U.
        -- apply I1. exact (unclosed_behind _ _ U).
        -- apply I2. intro U'. apply U. apply (unclosed_later (pre ++ id)). apply (unclosed_later (B ">")). exact U'.
      * rewrite starts_app. cbn [andb]. rewrite app_length in L. change (length (B "-->")) with 3 in L.
        replace (pre ++ id ++ B "-->" ++ q) with ((pre ++ id ++ B "--") ++ ">"%char :: q) by (rewrite <- !app_assoc; reflexivity). destruct (length id <? 64).
        -- rewrite (skip_front (B "-->")) by reflexivity. destruct (print_sound (span_html id) b Sb) as [Sb' _]. destruct (IH q (print (span_html id) b) ltac:(lia) Sb') as [I1 I2]. split; intro U.
           ++ apply I1. exact (unclosed_behind _ _ U).
           ++ apply I2. intro U'. apply U. apply unclosed_later. apply (unclosed_later (B ">")). exact U'.
        -- cbn [B list_ascii_of_string app]. destruct (copy_sound "-" b Sb) as [Sb' _]. destruct (IH ("-"%char :: ">"%char :: q) (copy "-" b) ltac:(cbn [length]; lia) Sb') as [I1 I2]. split; intro U.
           ++ apply I1. apply (unclosed_later (B "->")). exact (unclosed_behind _ _ U).
           ++ apply I2. intro U'. apply U. apply unclosed_later. apply (unclosed_later (B ">")). apply (unclosed_behind (B "-")). exact U'.
    + destruct (copy_sound c b Sb) as [Sb' _]. cbn [length] in L. destruct (IH s (copy c b) ltac:(lia) Sb') as [I1 I2]. split; intro U.
      * apply I1. exact (unclosed_step c s St U).
      * apply I2. intro U'. apply U. apply (unclosed_later [c]). exact U'.
Qed.

(** ** From the entries to the anchors *)
Lemma marked_copy n k s t l : Marked n k s t l -> forall x r, ~ In "<"%char x -> t = x ++ r -> exists r', s = x ++ r'.
Proof.
  induction 1 as [n k|n k c s t l M IH|n k w s t l Sh M IH]; intros x r N E.
  - destruct x; [eexists; reflexivity|discriminate E].
  - destruct x as [|y x]; [eexists; reflexivity|]. injection E as -> ->. destruct (IH x r) as (r' & ->); [intro I; apply N; right; exact I|reflexivity|]. exists r'. reflexivity.
  - destruct x as [|y x]; [eexists; reflexivity|]. injection E as E _. exfalso. apply N. left. symmetry. exact E.
Qed.

Lemma marked_anchored n k s t l : Marked n k s t l -> ~ within pre s -> Forall (fun i => length (name_of i) < 64) (map fst l) -> exists h, Anchored t h (map fst l).
Proof.
  induction 1 as [n k|n k c s t l M IH|n k w s t l Sh M IH]; intros N F.
  - exists []. constructor.
  - destruct IH as (h & A); [intros (a & b & ->); apply N; exists (c :: a), b; reflexivity|exact F|]. exists (c :: h). constructor; [|exact A].
    intros (r & E). injection E as -> E. destruct (marked_copy _ _ _ _ _ M (B "!--IDX:") r) as (r' & ->).
    + cbn. intro I. repeat destruct I as [I|I]; try discriminate I. contradiction.
    + exact E.
    + apply N. exists [], r'. reflexivity.
  - inversion F as [|? ? F1 F2]; subst. destruct IH as (h & A); [intros (a & b & ->); apply N; exists (w ++ a), b; rewrite <- app_assoc; reflexivity|exact F2|].
    exists (anchor_of n ++ h). cbn [map fst]. constructor; assumption.
Qed.

Lemma marked_seq n k s t l : Marked n k s t l -> map fst l = seq n (length l).
Proof. induction 1; cbn [map fst length seq]; [reflexivity|exact IHMarked|f_equal; exact IHMarked]. Qed.

Lemma marked_nonempty n k s t l : Marked n k s t l -> l <> [] -> t <> [].
Proof. intros M N. inversion M; subst; [congruence|discriminate|]. discriminate. Qed.

(** ** Order *)
Lemma lower_inj x y : code (tolower x) = code (tolower y) -> tolower x = tolower y.
Proof. apply code_inj. Qed.

Lemma casecmp_upto a : forall b, casecmp a b <> Gt <-> upto a b.
Proof.
  induction a as [|x a IH]; intros [|y b]; cbn [casecmp upto]; try (split; [auto|discriminate]); try (split; [congruence|tauto]).
  destruct (N.compare (code (tolower x)) (code (tolower y))) eqn:C.
  - apply N.compare_eq_iff in C. rewrite IH. split; [intro; right; split; [now apply code_inj|assumption]|]. intros [H|[_ H]]; [rewrite C in H; apply N.lt_irrefl in H; contradiction|exact H].
  - apply N.compare_lt_iff in C. split; [auto|discriminate].
  - apply N.compare_gt_iff in C. split; [congruence|]. intros [H|[H _]]; [apply (N.lt_asymm _ _ H) in C; contradiction|rewrite H in C; apply N.lt_irrefl in C; contradiction].
Qed.

Lemma casecmp_same a : forall b, casecmp a b = Eq <-> same_word a b.
Proof.
  unfold same_word. induction a as [|x a IH]; intros [|y b]; cbn [casecmp map]; try (split; congruence).
  destruct (N.compare (code (tolower x)) (code (tolower y))) eqn:C.
  - apply N.compare_eq_iff, code_inj in C. rewrite IH, C. split; [congruence|]. intro H. injection H as H. exact H.
  - split; [congruence|]. intro H. injection H as H _. rewrite H, N.compare_refl in C. discriminate C.
  - split; [congruence|]. intro H. injection H as H _. rewrite H, N.compare_refl in C. discriminate C.
Qed.

Lemma casecmp_flip a : forall b, casecmp b a = CompOpp (casecmp a b).
Proof.
  induction a as [|x a IH]; intros [|y b]; cbn [casecmp]; try reflexivity.
  rewrite (N.compare_antisym (code (tolower x)) (code (tolower y))). destruct (N.compare _ _); cbn [CompOpp]; [apply IH|reflexivity|reflexivity].
Qed.

Lemma upto_trans a : forall b c, upto a b -> upto b c -> upto a c.
Proof.
  induction a as [|x a IH]; intros [|y b] [|z c]; cbn [upto]; try tauto.
  intros [H1|[E1 H1]] [H2|[E2 H2]]; [left; exact (N.lt_trans _ _ _ H1 H2)|left; rewrite <- E2; exact H1|left; rewrite E1; exact H2|right; split; [congruence|exact (IH _ _ H1 H2)]].
Qed.

Definition line_of (e : entry) : str * option str := (e_item e, e_sub e).

Lemma upto_same a : forall b, same_word a b -> upto a b.
Proof. intros b H. apply casecmp_upto. apply casecmp_same in H. rewrite H. discriminate. Qed.

Lemma compare_upto a b : compare a b <> Gt <-> line_upto (line_of a) (line_of b).
Proof.
  unfold compare, line_upto, line_of. cbn [fst snd]. destruct (casecmp (e_item a) (e_item b)) eqn:C.
  - apply casecmp_same in C. pose proof (upto_same _ _ C) as U. destruct (e_sub a), (e_sub b); rewrite ?casecmp_upto; try tauto; split; (auto || discriminate).
  - assert (U : upto (e_item a) (e_item b)) by (apply casecmp_upto; congruence). split; [|discriminate]. intros _. split; [exact U|]. intro S. apply casecmp_same in S. congruence.
  - split; [congruence|]. intros [U _]. apply casecmp_upto in U. congruence.
Qed.

Lemma compare_flip a b : compare b a = CompOpp (compare a b).
Proof.
  unfold compare. rewrite (casecmp_flip (e_item a)). destruct (casecmp (e_item a) (e_item b)); cbn [CompOpp]; try reflexivity.
  destruct (e_sub a), (e_sub b); try reflexivity. apply casecmp_flip.
Qed.

Lemma upto_anti a : forall b, upto a b -> upto b a -> same_word a b.
Proof.
  intros b H1 H2. apply casecmp_same. apply casecmp_upto in H1, H2. rewrite casecmp_flip in H2. destruct (casecmp a b); cbn [CompOpp] in *; congruence.
Qed.

Lemma line_trans a b c : line_upto a b -> line_upto b c -> line_upto a c.
Proof.
  intros [U1 S1] [U2 S2]. split; [exact (upto_trans _ _ _ U1 U2)|]. intro S.
  assert (U3 : upto (fst c) (fst a)) by (apply upto_same; unfold same_word in *; congruence).
  assert (S12 : same_word (fst a) (fst b)) by (apply upto_anti; [exact U1|exact (upto_trans _ _ _ U2 U3)]).
  assert (S23 : same_word (fst b) (fst c)) by (unfold same_word in *; congruence).
  specialize (S1 S12). specialize (S2 S23). destruct (snd a), (snd b), (snd c); try tauto. exact (upto_trans _ _ _ S1 S2).
Qed.

(** ** The page *)
Definition as_line (e : entry) : str * option str * bool * nat := (e_item e, e_sub e, e_primary e, e_id e).

Definition tame (x : str) : Prop := ~ In "<"%char x /\ ~ In ">"%char x /\ ~ In "&"%char x /\ ~ In DQ x.

Lemma escape_tame x : tame x -> escape x = x.
Proof.
  intros (N1 & N2 & N3 & N4). induction x as [|c x IH]; [reflexivity|]. unfold escape in *. cbn [flat_map].
  assert (escape1 c = [c]) as -> by (unfold escape1; rewrite !(proj2 (ceq_neq _ _)) by (intros ->; first [now apply N1; left|now apply N2; left|now apply N3; left|now apply N4; left]); reflexivity).
  cbn [app]. f_equal. apply IH; intro I; [apply N1|apply N2|apply N3|apply N4]; right; exact I.
Qed.

Lemma link_exact e : length (name_of (e_id e)) < 64 -> link e = go_to (e_id e).
Proof. intro L. unfold link. rewrite firstn_all2; [reflexivity|]. rewrite !app_length. change (anchor (e_id e)) with (name_of (e_id e)). remember (name_of (e_id e)) as x. cbn [length B list_ascii_of_string]. lia. Qed.

Definition fair (e : entry) : Prop :=
  length (name_of (e_id e)) < 64 /\ length (e_item e) <= 2042 /\ tame (e_item e) /\ match e_sub e with None => True | Some x => tame x end.

Lemma item_shown e : fair e -> concat (item_html e) = shown escape (as_line e).
Proof.
  intros (L & Li & T & Ts). unfold item_html, shown, as_line. rewrite (link_exact e L), (escape_tame _ T).
  rewrite firstn_all2 by (rewrite !app_length; cbn [length B list_ascii_of_string]; lia).
  destruct (e_primary e), (e_sub e) as [x|]; try rewrite (escape_tame x Ts); unfold nl; cbn [app concat]; rewrite <- ?app_assoc, ?app_nil_r; cbn [app]; rewrite <- ?app_assoc; reflexivity.
Qed.

Lemma items_shown es : Forall fair es -> concat (concat (map item_html es)) = concat (map (shown escape) (map as_line es)).
Proof.
  induction 1 as [|e es F Fs IH]; [reflexivity|]. cbn [map concat]. rewrite concat_app, IH, (item_shown e F). reflexivity.
Qed.

Lemma flat_exact es : Forall fair es -> index_html false es = Some (index_page (flat escape (map as_line es))).
Proof.
  intro F. rewrite index_exact. f_equal. unfold appended, index_page, flat. cbn [app concat]. rewrite !concat_app, (items_shown es F). cbn [concat]. unfold nl.
  rewrite ?app_nil_r, <- ?app_assoc. reflexivity.
Qed.

(** *** Groups *)
Definition key (e : entry) : N := code (tolower (letter (e_item e))).

Lemma letter_first item : first_letter item (letter item).
Proof.
  unfold letter. destruct (span _ item) as [a b] eqn:E. destruct (span_split _ _ _ _ E) as (-> & F & G). cbn [snd].
  assert (F' : Forall (fun x => isalnum x = false) a) by (eapply Forall_impl; [|exact F]; intros x X; apply Bool.negb_true_iff; exact X).
  destruct b as [|c r]; [right; rewrite app_nil_r; auto|]. left. exists a, c, r. repeat split; [exact F'|]. apply Bool.negb_false_iff. exact (G c r eq_refl).
Qed.

Lemma letter_nul item : ceq (letter item) NUL = false.
Proof.
  destruct (letter_first item) as [(a & d & r & _ & _ & D & ->)|[_ ->]]; [|reflexivity].
  pose proof (byte_forall (fun d => implb (isalnum d) (negb (ceq (toupper d) NUL))) eq_refl d) as H. cbv beta in H. rewrite D in H. apply Bool.negb_true_iff. exact H.
Qed.

Lemma letter_key x y : code (tolower (letter x)) = code (tolower (letter y)) -> letter x = letter y.
Proof.
  intro E. apply code_inj in E. assert (H : forall z, toupper (tolower (letter z)) = letter z).
  { intro z. destruct (letter_first z) as [(a & d & r & _ & _ & D & ->)|[_ ->]]; [|reflexivity].
    pose proof (byte_forall (fun d => ceq (toupper (tolower (toupper d))) (toupper d)) eq_refl d) as H. cbv beta in H. apply ceq_eq. exact H. }
  rewrite <- (H x), <- (H y), E. reflexivity.
Qed.

(** [cur] is open: its lines go on, then come the further groups *)
Lemma grouped_open es : forall c, Forall fair es -> (forall e, In e es -> (code (tolower c) <= key e)%N) -> StronglySorted (fun a b => (key a <= key b)%N) es ->
  (exists z, c = letter z) ->
  exists ls gs, es = ls ++ concat (map snd gs) /\ Forall (fun e => letter (e_item e) = c) ls
    /\ Forall (fun g => snd g <> [] /\ Forall (fun e => letter (e_item e) = fst g) (snd g)) gs
    /\ StronglySorted (fun a b => (code (tolower a) < code (tolower b))%N) (c :: map fst gs)
    /\ concat (grouped c true es) = concat (map (shown escape) (map as_line ls)) ++ group_close ++ concat (map (group escape) (map (fun g => (fst g, map as_line (snd g))) gs)).
Proof.
  induction es as [|e es IH]; intros c F K SS Z.
  - exists [], []. cbn. repeat split; try constructor; constructor.
  - inversion F as [|? ? Fe Fs]; subst. inversion SS as [|? ? SS' H1]; subst. rewrite Forall_forall in H1. cbn [grouped]. destruct (ceq (letter (e_item e)) c) eqn:C.
    + destruct (IH c Fs) as (ls & gs & -> & Fl & Fg & Sg & E); [intros x X; apply K; right; exact X|exact SS'|exact Z|]. apply ceq_eq in C.
      exists (e :: ls), gs. split; [reflexivity|]. split; [constructor; assumption|]. split; [exact Fg|]. split; [exact Sg|].
      cbn [app]. rewrite concat_app, E, (item_shown e Fe). cbn [map concat]. rewrite <- app_assoc. reflexivity.
    + destruct (IH (letter (e_item e)) Fs) as (ls & gs & -> & Fl & Fg & Sg & E); [intros x X; exact (H1 x X)|exact SS'|eauto|].
      exists [], ((letter (e_item e), e :: ls) :: gs). split; [reflexivity|]. split; [constructor|]. split; [constructor; [split; [discriminate|]; cbn [snd fst]; constructor; [reflexivity|exact Fl]|exact Fg]|].
      assert (Lt : (code (tolower c) < code (tolower (letter (e_item e))))%N).
      { assert (Le : (code (tolower c) <= key e)%N) by (apply K; left; reflexivity). unfold key in Le. apply N.le_lteq in Le. destruct Le as [Le|Le]; [exact Le|]. exfalso.
        destruct Z as [z ->]. apply letter_key in Le. rewrite Le, ceq_refl in C. discriminate C. }
      split.
      * cbn [map fst]. constructor; [exact Sg|]. constructor; [exact Lt|]. inversion Sg as [|? ? _ Fx]; subst. eapply Forall_impl; [|exact Fx]. intros x X. exact (N.lt_trans _ _ _ Lt X).
      * cbn [map concat app fst snd]. rewrite concat_app, E, (item_shown e Fe). unfold group at 2. cbn [fst snd map concat]. unfold group_open, group_close, nl. cbn [app concat]. rewrite <- ?app_assoc. cbn [app]. rewrite <- ?app_assoc. reflexivity.
Qed.

Lemma groups_exact es : es <> [] -> Forall fair es -> StronglySorted (fun a b => (key a <= key b)%N) es ->
  exists gs, es = concat (map snd gs) /\ Forall (fun g => snd g <> [] /\ Forall (fun e => letter (e_item e) = fst g) (snd g)) gs /\ NoDup (map fst gs)
    /\ index_html true es = Some (index_page (concat (map (group escape) (map (fun g => (fst g, map as_line (snd g))) gs)))).
Proof.
  intros N F SS. destruct es as [|e es]; [congruence|]. inversion F as [|? ? Fe Fs]; subst. inversion SS as [|? ? SS' H1]; subst. rewrite Forall_forall in H1.
  destruct (grouped_open es (letter (e_item e)) Fs) as (ls & gs & -> & Fl & Fg & Sg & E); [intros x X; exact (H1 x X)|exact SS'|eauto|].
  exists ((letter (e_item e), e :: ls) :: gs). split; [reflexivity|]. split; [constructor; [split; [discriminate|]; cbn [snd fst]; constructor; [reflexivity|exact Fl]|exact Fg]|]. split.
  - cbn [map fst]. clear - Sg. induction Sg as [|a l S IH Fa]; constructor; [|exact IH]. intro I. rewrite Forall_forall in Fa. specialize (Fa a I). apply N.lt_irrefl in Fa. exact Fa.
  - rewrite index_exact. f_equal. unfold appended, index_page. cbn [grouped]. rewrite letter_nul. cbn [app concat]. rewrite !concat_app, E, (item_shown e Fe). cbn [concat map fst snd].
    unfold group at 2. cbn [fst snd map concat]. unfold group_open, group_close, nl. rewrite <- ?app_assoc. cbn [app]. rewrite <- ?app_assoc. reflexivity.
Qed.

Lemma upto_key a b c d r q : e_item a = c :: r -> isalnum c = true -> e_item b = d :: q -> isalnum d = true -> upto (e_item a) (e_item b) -> (key a <= key b)%N.
Proof.
  intros Ea C Eb D U. assert (K : forall e x y, e_item e = x :: y -> isalnum x = true -> key e = code (tolower x)).
  { intros e x y E X. unfold key, letter. rewrite E. cbn [span]. rewrite X. cbn [negb snd].
    pose proof (byte_forall (fun x => ceq (tolower (toupper x)) (tolower x)) eq_refl x) as H. cbv beta in H. apply ceq_eq in H. rewrite H. reflexivity. }
  rewrite (K a c r Ea C), (K b d q Eb D). rewrite Ea, Eb in U. cbn [upto] in U. destruct U as [U|[-> _]]; [apply N.lt_le_incl; exact U|apply N.le_refl].
Qed.

(** ** Where the index goes *)
Lemma insert_placed html index : Placed index html (insert html index).
Proof.
  unfold insert. destruct (strstr (B "<!--INDEX-->") html) as [k|] eqn:E1.
  - destruct (BaseL.strstr_some _ _ _ E1) as (a & b & E & <- & F).
    replace (firstn (length a) html) with a by (rewrite E; symmetry; apply take_front; reflexivity).
    replace (skipn (length a + 12) html) with b by (rewrite E, app_assoc; symmetry; apply skip_front; rewrite app_length; reflexivity).
    apply placed_mark. split; assumption.
  - assert (N : ~ within (B "<!--INDEX-->") html) by (intros (a & b & H); exact (strstr_none _ _ E1 a b H)).
    destruct (strstr (B "</body>") html) as [k|] eqn:E2.
    + destruct (BaseL.strstr_some _ _ _ E2) as (a & b & E & <- & F).
      replace (firstn (length a) html) with a by (rewrite E; symmetry; apply take_front; reflexivity).
      replace (skipn (length a) html) with (B "</body>" ++ b) by (rewrite E; symmetry; apply skip_front; reflexivity).
      apply placed_body; [exact N|]. split; assumption.
    + apply placed_end; [exact N|]. intros (a & b & H). exact (strstr_none _ _ E2 a b H).
Qed.

(** ** Stretches of text without entries *)
Lemma no_opener_byte c s : c <> "("%char -> c <> "{"%char -> no_opener (c :: s).
Proof. intros N1 N2. repeat constructor; intros r E; injection E as E _; congruence. Qed.

Lemma indexed_plain x : forall before n s t l, ~ In "("%char x -> ~ In "{"%char x -> Indexed (before ++ x) n s t l -> Indexed before n (x ++ s) (x ++ t) l.
Proof.
  induction x as [|c x IH]; intros before n s t l N1 N2 I; cbn [app]; [rewrite app_nil_r in I; exact I|].
  apply indexed_byte; [apply no_opener_byte; intros ->; [apply N1|apply N2]; left; reflexivity|]. apply IH; [intro; apply N1; right; assumption|intro; apply N2; right; assumption|].
  rewrite <- app_assoc. exact I.
Qed.

Lemma occurs_none n pat s : ~ within pat s -> occurs n pat s = false.
Proof.
  induction s as [|c s IH]; intro N; cbn [occurs]; [reflexivity|]. rewrite IH by (intros (a & b & ->); apply N; exists (c :: a), b; reflexivity).
  destruct (starts pat (c :: s)) eqn:St; [|rewrite Bool.andb_false_r; reflexivity]. exfalso. apply N. apply starts_spec in St. destruct St as [r ->]. exists [], r. reflexivity.
Qed.

Lemma process_plain o text reg : ~ within (B "(!") text -> ~ within (B "{^") text -> ~ within (B "{i:") text -> process o text reg = Same.
Proof.
  intros N1 N2 N3. unfold process, quick. rewrite (occurs_none 3 _ _ N1), (occurs_none 2 _ _ N2), (occurs_none 5 _ _ N3). rewrite !Bool.andb_false_r. reflexivity.
Qed.

(** ** Terms *)
Definition neat (x : str) : Prop := x <> [] /\ (whites x \/ exists r c, x = r ++ [c] /\ isspace c = false).

Lemma trim_neat x : x <> [] -> neat (trim x).
Proof.
  intro N. split; [apply trim_nonempty; exact N|]. destruct (white_cases x) as [W|(a & y & b & -> & Wa & Sy & Wb)]; [left; rewrite trim_whites; exact W|right].
  rewrite trim_at by assumption. destruct Sy as [_ (c & r & -> & C)]. exists (a ++ r), c. split; [apply app_assoc|exact C].
Qed.

Lemma mmark_neat s item sub p rest : mmark s = Some (item, sub, p, rest) -> neat item.
Proof.
  unfold mmark. destruct (length s <=? 3); [discriminate|]. destruct (starts _ s); [|discriminate]. cbn [negb]. destruct (span _ (skipn _ s)) as [it q].
  destruct (forallb _ it); [|discriminate]. cbn [negb]. destruct (trim it) as [|i0 i1] eqn:T; [discriminate|].
  assert (N : neat (i0 :: i1)) by (rewrite <- T; apply trim_neat; intros ->; discriminate T).
  destruct q as [|c r]; [discriminate|]. destruct (ceq c ",").
  - destruct (span _ (snd _)) as [sb q']. destruct (forallb valid sb); [|discriminate]. destruct q'; [discriminate|]. intro H. injection H as <- _ _ _. exact N.
  - intro H. injection H as <- _ _ _. exact N.
Qed.

Lemma textindex_neat rb s item sub p rest : textindex rb s = Some (item, sub, p, rest) -> neat item.
Proof.
  unfold textindex. destruct (length s <=? 2); [discriminate|]. destruct (starts _ s); [|discriminate]. cbn [negb]. destruct (span _ (skipn _ s)) as [pa q].
  destruct q as [|c r]; [discriminate|]. destruct (negb (ceq c "}")); [discriminate|].
  assert (H : forall t, (match bracketed rb with [] => phrase rb | t => t end) = t -> t <> [] -> neat t).
  { intros t <- N. destruct (bracketed rb) as [|b0 b1] eqn:E.
    - unfold phrase in *. apply trim_neat. intro Z. rewrite Z in N. apply N. reflexivity.
    - rewrite <- E. unfold bracketed in *. destruct (ceq (at_ rb 0) "]"); [|discriminate E]. destruct (strchr "[" rb) as [k|]; [|discriminate E]. destruct (_ && _); [|discriminate E].
      apply trim_neat. intro Z. rewrite Z in E. discriminate E. }
  destruct (match bracketed rb with [] => phrase rb | t => t end) as [|t0 t1] eqn:T; [discriminate|]. intro G. injection G as <- _ _ _. apply H; [reflexivity|discriminate].
Qed.

Lemma go_neat m x : forall fuel rb s b reg out reg', go fuel (Syntaxes m x false) rb s b reg = Out out reg' -> exists new, r_entries reg' = new ++ r_entries reg /\ Forall (fun e => neat (e_item e)) new.
Proof.
  induction fuel as [|fuel IH]; intros rb s b reg out reg' H; [discriminate H|]. cbn [go] in H. destruct s as [|c s].
  - destruct (bad_end b); [discriminate H|]. injection H as _ <-. exists []. split; [reflexivity|constructor].
  - destruct (parsed (Syntaxes m x false) rb (c :: s)) as [[[[item sub] p] rest]|] eqn:P.
    + destruct (IH _ _ _ _ _ _ H) as (new & -> & F). cbn [r_entries]. exists (new ++ [Entry item sub p (length rb) (r_next reg)]). split; [rewrite <- app_assoc; reflexivity|].
      apply Forall_app. split; [exact F|]. constructor; [|constructor]. cbn [e_item]. unfold parsed in P. cbn [o_mmark o_textindex o_leanpub andb] in P.
      destruct (if m then mmark (c :: s) else None) as [f|] eqn:E1.
      * injection P as ->. destruct m; [|discriminate E1]. exact (mmark_neat _ _ _ _ _ E1).
      * destruct (if x then textindex rb (c :: s) else None) as [f|] eqn:E2; [|discriminate P]. injection P as ->. destruct x; [|discriminate E2]. exact (textindex_neat _ _ _ _ _ _ E2).
    + exact (IH _ _ _ _ _ _ H).
Qed.

(** ** Text that is lost *)
Lemma anchored_app a : ~ In "<"%char a -> forall s t l, Anchored s t l -> Anchored (a ++ s) (a ++ t) l.
Proof.
  induction a as [|c a IH]; intros N s t l A; cbn [app]; [exact A|]. constructor; [intros (r & E); injection E as E _; apply N; left; exact E|]. apply IH; [intro; apply N; right; assumption|exact A].
Qed.

Lemma spans_plain a : ~ In "<"%char a -> forall fuel s b, length (a ++ s) < fuel -> sound b -> exists fuel' b', length s < fuel' /\ sound b' /\ b_out b' = b_out b ++ a /\ spans fuel (a ++ s) b = spans fuel' s b'.
Proof.
  induction a as [|c a IH]; intros N fuel s b L Sb; cbn [app] in *.
  - exists fuel, b. rewrite app_nil_r. auto.
  - destruct fuel as [|fuel]; [lia|]. cbn [length] in L. destruct (copy_sound c b Sb) as [Sb' Eb].
    destruct (IH ltac:(intro; apply N; right; assumption) fuel s (copy c b) ltac:(lia) Sb') as (f & b' & L' & S' & E' & R). exists f, b'. split; [exact L'|]. split; [exact S'|]. split; [rewrite E', Eb, <- app_assoc; reflexivity|].
    cbn [spans]. replace (starts (B "<!--IDX:") (c :: a ++ s)) with false; [exact R|]. symmetry. apply opener_none. intros r E. injection E as E _. apply N. left. exact E.
Qed.

Lemma to_close_lost x b : ~ In ">"%char x -> ~ (exists y, x = y ++ B "--") -> to_close (x ++ ">"%char :: b) = (x, ">"%char :: b).
Proof.
  induction x as [|c x IH]; intros N1 N2; [reflexivity|]. cbn [app to_close]. rewrite (proj2 (ceq_neq c ">")) by (intros ->; apply N1; left; reflexivity).
  replace (starts (B "-->") (c :: x ++ ">"%char :: b)) with false.
  - cbn [orb]. rewrite IH; [reflexivity|intro; apply N1; right; assumption|]. intros (y & ->). apply N2. exists (c :: y). reflexivity.
  - symmetry. apply opener_none. intros r E. injection E as -> E. destruct x as [|d x]; [discriminate E|]. injection E as -> E. destruct x as [|e x]; [apply N2; exists []; reflexivity|].
    injection E as -> _. apply N1. right. right. left. reflexivity.
Qed.

Lemma render_lost a x b : ~ In "<"%char a -> ~ In "<"%char b -> ~ In ">"%char x -> ~ (exists y, x = y ++ B "--") -> render (a ++ B "<!--IDX:" ++ x ++ B ">" ++ b) = Page (a ++ B ">" ++ b).
Proof.
  intros Na Nb N1 N2. unfold render.
  destruct (spans_plain a Na (S (length (a ++ B "<!--IDX:" ++ x ++ B ">" ++ b))) (B "<!--IDX:" ++ x ++ B ">" ++ b) (Buf (length (a ++ B "<!--IDX:" ++ x ++ B ">" ++ b) * 2) [] false) (Nat.lt_succ_diag_r _)) as (f & b' & L & Sb & E & R);
    [apply start_sound; destruct a; discriminate|]. rewrite R. destruct f as [|f]; [lia|]. cbn [b_out app] in E.
  assert (Step : spans (S f) (B "<!--IDX:" ++ x ++ B ">" ++ b) b' = spans f b (copy ">" b')).
  { change (B "<!--IDX:" ++ x ++ B ">" ++ b) with ("<"%char :: B "!--IDX:" ++ x ++ B ">" ++ b) at 1. cbn [spans]. change ("<"%char :: B "!--IDX:" ++ x ++ B ">" ++ b) with (B "<!--IDX:" ++ x ++ B ">" ++ b).
    rewrite starts_app, (skip_front (B "<!--IDX:")) by reflexivity. change (B ">" ++ b) with (">"%char :: b). rewrite to_close_lost by assumption. reflexivity. }
  rewrite Step. destruct (copy_sound ">" b' Sb) as [Sb2 E2]. rewrite !app_length in L. cbn [length B list_ascii_of_string] in L.
  assert (A : Anchored b b []). { replace b with (b ++ []) by apply app_nil_r. apply anchored_app; [exact Nb|constructor]. }
  rewrite (anchored_spans b b [] A) by (lia || exact Sb2). rewrite E2, E, <- app_assoc. reflexivity.
Qed.
