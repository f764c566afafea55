(** Lemmas about wiki links. *)
From Verif Require Import Base BaseL M_Md L_Md M_Wiki S_Wiki.

Lemma ceqt a b : ceq a b = true -> a = b.
Proof. apply ceq_eq. Qed.
(** ** Parts of a link *)
Lemma parse_says content : let '(page, display, section) := parse_wiki content in says content page section display.
Proof.
  unfold parse_wiki. destruct (strchr "|" content) as [k|] eqn:P.
  - apply strchr_some in P as (a & b & -> & <- & N). rewrite firstn_app, firstn_all, Nat.sub_diag. cbn [firstn]. rewrite app_nil_r.
    replace (skipn (S (length a)) (a ++ "|"%char :: b)) with b by (rewrite skipn_app, skipn_all2 by lia; replace (S (length a) - length a) with 1 by lia; reflexivity).
    destruct (strchr "#" a) as [h|] eqn:H.
    + apply strchr_some in H as (p & s & -> & <- & N2). rewrite firstn_app, firstn_all, Nat.sub_diag. cbn [firstn]. rewrite app_nil_r.
      replace (skipn (S (length p)) (p ++ "#"%char :: s)) with s by (rewrite skipn_app, skipn_all2 by lia; replace (S (length p) - length p) with 1 by lia; reflexivity).
      split; [cbn [part]; rewrite <- app_assoc; reflexivity|]. split; [intros J; apply N, in_app_iff; auto|]. split; [exact N2|]. intros x [= <-] J. apply N, in_app_iff. right. right. exact J.
    + apply strchr_none in H. split; [reflexivity|]. split; [exact N|]. split; [exact H|discriminate].
  - apply strchr_none in P. destruct (strchr "#" content) as [h|] eqn:H.
    + apply strchr_some in H as (p & s & -> & <- & N2). rewrite firstn_app, firstn_all, Nat.sub_diag. cbn [firstn]. rewrite app_nil_r.
      replace (skipn (S (length p)) (p ++ "#"%char :: s)) with s by (rewrite skipn_app, skipn_all2 by lia; replace (S (length p) - length p) with 1 by lia; reflexivity).
      split; [cbn [part]; rewrite app_nil_r; reflexivity|]. split; [intros J; apply P, in_app_iff; auto|]. split; [exact N2|]. intros x [= <-] J. apply P, in_app_iff. right. right. exact J.
    + apply strchr_none in H. split; [cbn [part]; rewrite !app_nil_r; reflexivity|]. split; [exact P|]. split; [exact H|discriminate].
Qed.
Lemma says_uniq content p s d p' s' d' : says content p s d -> says content p' s' d' -> p = p' /\ s = s' /\ d = d'.
Proof.
  assert (U : forall p s d, says content p s d -> parse_wiki content = (p, d, s)).
  { intros q s0 d0 (-> & N1 & N2 & N3). unfold parse_wiki.
    assert (S1 : forall x y c, ~ In c x -> strchr c (x ++ c :: y) = Some (length x)) by (intros x y c N; apply strchr_some; exists x, y; auto).
    assert (F : forall (x y : str), firstn (length x) (x ++ y) = x) by (intros x y; rewrite firstn_app, firstn_all, Nat.sub_diag; cbn [firstn]; apply app_nil_r).
    assert (K : forall x c (y : str), skipn (S (length x)) (x ++ c :: y) = y) by (intros x c y; rewrite skipn_app, skipn_all2 by lia; replace (S (length x) - length x) with 1 by lia; reflexivity).
    destruct d0 as [d0|].
    - assert (E : strchr "|" (q ++ part (B "#") s0 ++ part (B "|") (Some d0)) = Some (length (q ++ part (B "#") s0))).
      { rewrite app_assoc. cbn [part]. apply S1. intros J. apply in_app_iff in J as [J|J]; [exact (N1 J)|]. destruct s0 as [x|]; [|exact J]. destruct J as [J|J]; [discriminate J|exact (N3 x eq_refl J)]. }
      rewrite E, app_assoc. cbn [part]. change (B "|" ++ d0) with ("|"%char :: d0). rewrite F, K. destruct s0 as [x|]; cbn [part].
      + change (B "#" ++ x) with ("#"%char :: x). rewrite S1, F, K by exact N2. reflexivity.
      + rewrite app_nil_r. rewrite (proj2 (strchr_none _ _) N2). reflexivity.
    - cbn [part]. rewrite app_nil_r. assert (E : strchr "|" (q ++ part (B "#") s0) = None).
      { apply strchr_none. intros J. apply in_app_iff in J as [J|J]; [exact (N1 J)|]. destruct s0 as [x|]; [|exact J]. destruct J as [J|J]; [discriminate J|exact (N3 x eq_refl J)]. }
      rewrite E. destruct s0 as [x|]; cbn [part].
      + change (B "#" ++ x) with ("#"%char :: x). rewrite S1, F, K by exact N2. reflexivity.
      + rewrite app_nil_r. rewrite (proj2 (strchr_none _ _) N2). reflexivity. }
  intros H1 H2. apply U in H1, H2. rewrite H1 in H2. injection H2 as -> -> ->. auto.
Qed.
Lemma ext_dotted cfg : dotted (extension cfg) (ext_part cfg).
Proof.
  unfold dotted, ext_part. destruct (extension cfg) as [[|c e]|]; try reflexivity. destruct (ceq c ".") eqn:C.
  - apply ceqt in C as ->. left. exists e. auto.
  - right. split; [|reflexivity]. intros (x & E). injection E as -> _. discriminate C.
Qed.
Lemma respaced_eq cfg page : sanitize cfg = false -> page_part cfg page = respaced (mode_of cfg) page.
Proof.
  intros S. unfold page_part. rewrite S. induction page as [|c p IH]; [reflexivity|]. cbn [flat_map respaced]. rewrite IH. destruct (ceq c SP); [|reflexivity]. destruct (mode_of cfg); reflexivity.
Qed.
Lemma url_address cfg page section : address cfg (page_part cfg page) section (page_to_url cfg page section).
Proof. exists (ext_part cfg). split; [apply ext_dotted|]. unfold page_to_url. destruct section; reflexivity. Qed.

(** ** The buffer *)
Lemma put_length sp last c k n : (forall l, length (k l) <= n) -> length (put sp last c k) <= S n.
Proof.
  intros H. unfold put. destruct (negb _ && _ && _), sp; cbn [length]; repeat match goal with |- context [if ?b then _ else _] => destruct b end; cbn [length];
    repeat match goal with |- context [k ?l] => pose proof (H l); generalize dependent (k l); intros end; lia.
Qed.
Lemma len_ind (P : str -> Prop) : (forall s, (forall r, length r < length s -> P r) -> P s) -> forall s, P s.
Proof.
  intros H s. assert (A : forall n s, length s < n -> P s); [|apply (A (S (length s))); lia].
  induction n as [|n IH]; intros x L; [lia|]. apply H. intros r Lr. apply IH. lia.
Qed.
Lemma san_length sp : forall s last, length (san sp last s) <= length s.
Proof.
  induction s as [s IH] using len_ind. intros last. destruct s as [|c r]; [cbn; lia|]. cbn [san].
  destruct (_ || _ || _); [pose proof (IH r (Nat.lt_succ_diag_r _) last); cbn [length]; lia|].
  destruct r as [|d r2]; [apply put_length; intros l; cbn; lia|].
  assert (H2 : forall l, length (san sp l r2) <= length r2) by (intros l; apply IH; cbn [length]; lia).
  assert (H1 : forall l, length (san sp l (d :: r2)) <= length (d :: r2)) by (intros l; apply IH; cbn [length]; lia).
  destruct (_ && _); [pose proof (H2 last); cbn [length]; lia|].
  destruct (ceq c (byte 226) && _) eqn:E3.
  { destruct r2 as [|e r3]; [cbn; lia|]. assert (H3 : length (san sp last r3) <= length r3) by (apply IH; cbn [length]; lia). cbn [length]. lia. }
  destruct (_ && _ && _); [pose proof (H2 last); cbn [length]; lia|]. destruct (_ && _ && _); [pose proof (H2 last); cbn [length]; lia|].
  destruct (ceq c (byte 195)); [|apply put_length; exact H1].
  destruct (_ || _); [pose proof (H2 false); cbn [length]; lia|]. destruct (ceq d (byte 159)); [pose proof (H2 false); cbn [length]; lia|].
  destruct (latin1_to_ascii d); [apply Nat.le_trans with (S (length r2)); [apply put_length; exact H2|cbn [length]; lia]|].
  destruct sp; [destruct last|]; cbn [length]; [pose proof (H2 true)|pose proof (H2 true)|pose proof (H2 last)]; cbn [length] in *; lia.
Qed.
Lemma removelast_length (s : str) : length (removelast s) <= length s.
Proof. induction s as [|c s IH]; [cbn; lia|]. cbn [removelast]. destruct s; cbn [length] in *; lia. Qed.
Lemma page_part_length cfg page : length (page_part cfg page) <= length page.
Proof.
  unfold page_part. destruct (sanitize cfg).
  - apply Nat.le_trans with (length (san (space_char (mode_of cfg)) true page)); [|apply san_length]. unfold trim_end.
    destruct (rev _); [lia|]. destruct (is_sp _ _); [apply removelast_length|lia].
  - induction page as [|c p IH]; [cbn; lia|]. cbn [flat_map]. rewrite app_length. destruct (ceq c SP); [destruct (space_char (mode_of cfg))|]; cbn [length]; lia.
Qed.
Lemma url_fits cfg page section : length (page_to_url cfg page section) + 1 <= url_len cfg page section.
Proof.
  unfold page_to_url, url_len. rewrite !app_length. pose proof (page_part_length cfg page).
  assert (E : length (ext_part cfg) <= match extension cfg with Some e => length e | None => 0 end + 1).
  { unfold ext_part. destruct (extension cfg) as [[|c e]|]; cbn [length]; try lia. rewrite app_length. destruct (ceq c "."); cbn; lia. }
  destruct section; rewrite ?app_length; cbn [length B list_ascii_of_string]; lia.
Qed.

(** ** Cleaned names *)
Definition namec (c : ascii) : bool := islower c || isdigit c || ceq c "/" || ceq c ".".
Fixpoint wf (sp : option ascii) (last : bool) (s : str) : bool :=
  match s with [] => true | c :: r => if is_sp sp c then negb last && wf sp true r else namec c && wf sp false r end.
Lemma low_name c : let c := if isupper c then tolower c else c in negb (isalnum c) && negb (ceq c "/") && negb (ceq c ".") = false -> namec c = true.
Proof.
  assert (H : forallb (fun c => let c := if isupper c then tolower c else c in (negb (isalnum c) && negb (ceq c "/") && negb (ceq c ".")) || namec c) all_bytes = true) by (vm_compute; reflexivity).
  pose proof (byte_forall _ H c) as K. cbv beta zeta in K |- *. intros E. rewrite E in K. exact K.
Qed.
Lemma put_wf sp last c k : (forall l, wf sp l (k l) = true) -> wf sp last (put sp last c k) = true.
Proof.
  intros H. unfold put. cbv zeta. pose proof (low_name c) as LN. cbv zeta in LN. set (d := if isupper c then tolower c else c) in *.
  destruct (negb (isalnum d) && negb (ceq d "/") && negb (ceq d ".")).
  - destruct sp as [p|]; [|apply H]. cbn [is_sp]. rewrite ceq_refl. destruct last; [apply H|]. cbn [wf is_sp]. rewrite ceq_refl. apply H.
  - specialize (LN eq_refl). assert (G : wf sp last (if is_sp sp d then if last then k last else d :: k true else d :: k false) = true).
    { destruct (is_sp sp d) eqn:E; [destruct last; [apply H|cbn [wf]; rewrite E; apply H]|]. cbn [wf]. rewrite E, LN. apply H. }
    destruct sp; exact G.
Qed.
Lemma san_wf m : forall s last, wf (space_char m) last (san (space_char m) last s) = true.
Proof.
  induction s as [s IH] using len_ind. intros last. destruct s as [|c r]; [reflexivity|]. cbn [san].
  destruct (_ || _ || _); [apply IH; cbn [length]; lia|].
  destruct r as [|d r2]; [apply put_wf; reflexivity|].
  assert (H2 : forall l, wf (space_char m) l (san (space_char m) l r2) = true) by (intros l; apply IH; cbn [length]; lia).
  assert (H1 : forall l, wf (space_char m) l (san (space_char m) l (d :: r2)) = true) by (intros l; apply IH; cbn [length]; lia).
  destruct (_ && _); [apply H2|]. destruct (ceq c (byte 226) && _) eqn:E3.
  { destruct r2 as [|e r3]; [reflexivity|]. apply IH. cbn [length]. lia. }
  destruct (_ && _ && _); [apply H2|]. destruct (_ && _ && _); [apply H2|].
  destruct (ceq c (byte 195)); [|apply put_wf; exact H1].
  destruct (_ || _); [destruct m; cbn; apply H2|]. destruct (ceq d (byte 159)); [destruct m; cbn; apply H2|].
  destruct (latin1_to_ascii d); [apply put_wf; exact H2|].
  destruct (space_char m) as [p|] eqn:SP_; [|apply H2]. destruct last; [apply H2|]. cbn [wf is_sp]. rewrite ceq_refl. apply H2.
Qed.
Lemma wf_prefix sp a : forall last b, wf sp last (a ++ b) = true -> wf sp last a = true.
Proof.
  induction a as [|c a IH]; intros last b H; [reflexivity|]. cbn [app wf] in H |- *. destruct (is_sp sp c).
  - apply andb_true_iff in H as [H1 H2]. rewrite H1. exact (IH _ _ H2).
  - apply andb_true_iff in H as [H1 H2]. rewrite H1. exact (IH _ _ H2).
Qed.
Lemma wf_pair sp a : forall last c d b, wf sp last (a ++ c :: d :: b) = true -> is_sp sp c = true -> is_sp sp d = false.
Proof.
  induction a as [|x a IH]; intros last c d b H C.
  - cbn [app wf] in H. rewrite C in H. apply andb_true_iff in H as [_ H]. destruct (is_sp sp d); [discriminate H|reflexivity].
  - cbn [app wf] in H. destruct (is_sp sp x); apply andb_true_iff in H as [_ H]; exact (IH _ _ _ _ H C).
Qed.
Lemma wf_chars sp s : forall last, wf sp last s = true -> Forall (fun c => is_sp sp c = true \/ namec c = true) s.
Proof.
  induction s as [|c s IH]; intros last H; [constructor|]. cbn [wf] in H. destruct (is_sp sp c) eqn:E; apply andb_true_iff in H as [H1 H2]; constructor; auto; eapply IH; exact H2.
Qed.
Lemma sep_sp m c : sep m c <-> is_sp (space_char m) c = true.
Proof. destruct m; cbn; rewrite ?ceq_eq; try reflexivity. split; [contradiction|discriminate]. Qed.
Lemma trim_cases sp s : (trim_end sp s = s /\ forall x c, s = x ++ [c] -> is_sp sp c = false) \/ exists c, s = trim_end sp s ++ [c] /\ is_sp sp c = true.
Proof.
  unfold trim_end. destruct (rev s) as [|c r] eqn:R.
  - left. split; [reflexivity|]. intros x c ->. rewrite rev_unit in R. discriminate R.
  - assert (E : s = rev r ++ [c]) by (rewrite <- (rev_involutive s), R; reflexivity). destruct (is_sp sp c) eqn:C.
    + right. exists c. split; [|exact C]. rewrite E, removelast_last. reflexivity.
    + left. split; [reflexivity|]. intros x d H. rewrite E in H. apply app_inj_tail in H as [_ <-]. exact C.
Qed.
Lemma page_clean cfg page : sanitize cfg = true -> clean (mode_of cfg) (page_part cfg page).
Proof.
  intros S. unfold page_part. rewrite S. set (m := mode_of cfg). set (s := san (space_char m) true page).
  pose proof (san_wf m page true) as W. fold s in W. set (t := trim_end (space_char m) s).
  assert (T : wf (space_char m) true t = true /\ forall x c, t = x ++ [c] -> is_sp (space_char m) c = false).
  { destruct (trim_cases (space_char m) s) as [[E H]|(c & E & C)]; fold t in E.
    - rewrite E. auto.
    - split; [apply (wf_prefix _ _ _ [c]); rewrite <- E; exact W|]. intros x d F. destruct (is_sp (space_char m) d) eqn:D; [|reflexivity].
      rewrite F in E. rewrite E, <- app_assoc in W. cbn [app] in W. rewrite (wf_pair _ _ _ _ _ _ W D) in C. discriminate C. }
  destruct T as [T1 T2]. clearbody t. clear s W S. split; [|split; [|split]].
  - eapply Forall_impl; [|exact (wf_chars _ _ _ T1)]. intros c [H|H]; unfold name_char; [right; right; right; right; apply sep_sp; exact H|].
    unfold namec in H. rewrite !orb_true_iff in H. rewrite !ceq_eq in H. tauto.
  - intros c x ->. rewrite sep_sp. cbn [wf] in T1. destruct (is_sp (space_char m) c); [discriminate T1|discriminate].
  - intros c x E. rewrite sep_sp, (T2 x c E). discriminate.
  - intros a b c d E [H1 H2]. apply sep_sp in H1, H2. rewrite E in T1. rewrite (wf_pair _ _ _ _ _ _ T1 H1) in H2. discriminate H2.
Qed.
Definition quote_like (c : ascii) : bool := ceq c SQ || ceq c DQ || ceq c BT.
Lemma san_ascii sp last c r : nat_of_ascii c < 128 -> san sp last (c :: r) = if quote_like c then san sp last r else put sp last c (fun l => san sp l r).
Proof.
  intros A. change (ceq c SQ || ceq c DQ || ceq c BT) with (quote_like c). cbn [san]. fold (quote_like c). destruct (quote_like c); [reflexivity|]. destruct r as [|d r2]; [reflexivity|].
  assert (N : forall n, 128 <= n < 256 -> ceq c (byte n) = false).
  { intros n L. apply ceq_neq. intros ->. unfold byte in A. rewrite nat_ascii_embedding in A by lia. lia. }
  rewrite !N by lia. reflexivity.
Qed.
Lemma wf_san m : forall s last, wf (space_char m) last s = true -> san (space_char m) last s = s.
Proof.
  assert (P : forall c k last, is_sp (space_char m) c = true -> nat_of_ascii c < 128 /\ quote_like c = false /\ (last = false -> put (space_char m) last c k = c :: k true)).
  { intros c k last H. destruct m; try discriminate H; apply ceqt in H as ->; (split; [vm_compute; lia|]); (split; [reflexivity|]); intros ->; reflexivity. }
  assert (Q : forall c, namec c = true -> (nat_of_ascii c <? 128) && negb (quote_like c) && negb (isupper c) && (isalnum c || ceq c "/" || ceq c ".") = true).
  { intros c H. assert (F : forallb (fun c => negb (namec c) || (nat_of_ascii c <? 128) && negb (quote_like c) && negb (isupper c) && (isalnum c || ceq c "/" || ceq c ".")) all_bytes = true) by (vm_compute; reflexivity).
    pose proof (byte_forall _ F c) as K. cbv beta in K. rewrite H in K. exact K. }
  induction s as [|c s IH]; intros last W; [reflexivity|]. cbn [wf] in W. destruct (is_sp (space_char m) c) eqn:E; apply andb_true_iff in W as [W1 W2].
  - destruct last; [discriminate W1|]. destruct (P c (fun l => san (space_char m) l s) false E) as (A & B_ & C). rewrite san_ascii, B_, C by auto. cbv beta. rewrite IH by exact W2. reflexivity.
  - specialize (Q c W1). repeat (apply andb_true_iff in Q as [Q ?]). apply Nat.ltb_lt in Q. rewrite san_ascii by exact Q.
    destruct (quote_like c); [discriminate|]. unfold put. destruct (isupper c); [discriminate|]. cbv zeta.
    assert (O : negb (isalnum c) && negb (ceq c "/") && negb (ceq c ".") = false).
    { rewrite <- !negb_orb. match goal with H : _ || _ || _ = true |- _ => rewrite H end. reflexivity. }
    rewrite O, E. destruct (space_char m); rewrite IH by exact W2; reflexivity.
Qed.
Lemma page_idem cfg page : sanitize cfg = true -> page_part cfg (page_part cfg page) = page_part cfg page.
Proof.
  intros S. assert (E : page_part cfg page = trim_end (space_char (mode_of cfg)) (san (space_char (mode_of cfg)) true page)) by (unfold page_part; rewrite S; reflexivity).
  destruct (page_clean cfg page S) as (_ & _ & L & _). set (p := page_part cfg page) in *.
  assert (W : wf (space_char (mode_of cfg)) true p = true).
  { destruct (trim_cases (space_char (mode_of cfg)) (san (space_char (mode_of cfg)) true page)) as [[F _]|(c & F & _)]; pose proof (san_wf (mode_of cfg) page true) as V.
    - rewrite E, F. exact V.
    - rewrite <- E in F. rewrite F in V. exact (wf_prefix _ _ _ _ V). }
  unfold page_part. rewrite S, (wf_san _ _ _ W). destruct (trim_cases (space_char (mode_of cfg)) p) as [[F _]|(c & F & C)]; [exact F|].
  exfalso. apply (L c _ F). apply sep_sp. exact C.
Qed.
(** ** Spelling *)
Lemma put_ext sp last c k k' : (forall l, k l = k' l) -> put sp last c k = put sp last c k'.
Proof. intros H. unfold put. destruct (_ && _), sp; rewrite ?H; reflexivity. Qed.
Lemma accent_byte p c : accented p c -> 192 <= p <= 255 /\ latin1_to_ascii (byte (128 + p mod 64)) = Some c /\ p <> 198 /\ p <> 230 /\ p <> 223.
Proof.
  intros (rs & lo & hi & I & J & L1 & L2).
  assert (F : forallb (fun e => forallb (fun r => forallb (fun p => (192 <=? p) && (p <=? 255) && match latin1_to_ascii (byte (128 + p mod 64)) with Some x => ceq x (fst e) | None => false end &&
    negb (p =? 198) && negb (p =? 230) && negb (p =? 223)) (seq (fst r) (S (snd r) - fst r))) (snd e)) letters_of = true) by (vm_compute; reflexivity).
  rewrite forallb_forall in F. specialize (F _ I). cbn [fst snd] in F. rewrite forallb_forall in F. specialize (F _ J). cbn [fst snd] in F. rewrite forallb_forall in F.
  assert (K : In p (seq lo (S hi - lo))) by (apply in_seq; lia). specialize (F _ K). repeat (apply andb_true_iff in F as [F ?]).
  apply Nat.leb_le in F. match goal with H : (p <=? 255) = true |- _ => apply Nat.leb_le in H end.
  repeat match goal with H : negb (p =? _) = true |- _ => apply negb_true_iff, Nat.eqb_neq in H end.
  split; [lia|]. split; [|auto]. destruct (latin1_to_ascii (byte (128 + p mod 64))) as [x|]; [|discriminate]. match goal with H : ceq x c = true |- _ => apply ceqt in H as -> end. reflexivity.
Qed.
Lemma accented_ascii p c : accented p c -> nat_of_ascii c < 128 /\ quote_like c = false.
Proof.
  intros (rs & lo & hi & I & _). cbn [letters_of In] in I. repeat (destruct I as [I|I]; [injection I as <- _; split; [vm_compute; lia|reflexivity]|]). contradiction.
Qed.
Lemma latin_page p : 192 <= p <= 255 -> utf8_2 p = [byte 195; byte (128 + p mod 64)].
Proof. intros L. unfold utf8_2. assert (D : p / 64 = 3) by (symmetry; apply (Nat.div_unique p 64 3 (p - 192)); lia). rewrite D. reflexivity. Qed.
Lemma byte_ne a b : a < 256 -> b < 256 -> a <> b -> ceq (byte a) (byte b) = false.
Proof.
  intros La Lb N. apply ceq_neq. intros E. apply (f_equal nat_of_ascii) in E. unfold byte in E. rewrite !nat_ascii_embedding in E by assumption. contradiction.
Qed.
Lemma spelled_san m s t : spelled s t -> forall last, san (space_char m) last s = san (space_char m) last t.
Proof.
  intros H. set (sp := space_char m). induction H as [|c s t A H IH|p c s t A H IH|p s t P H IH|s t H IH|p s t P H IH]; intros last; [reflexivity|..].
  - assert (A2 : nat_of_ascii (tolower c) < 128 /\ quote_like (tolower c) = quote_like c /\ (if isupper (tolower c) then tolower (tolower c) else tolower c) = if isupper c then tolower c else c).
    { assert (F : forallb (fun c => negb (nat_of_ascii c <? 128) || (nat_of_ascii (tolower c) <? 128) && Bool.eqb (quote_like (tolower c)) (quote_like c) &&
        ceq (if isupper (tolower c) then tolower (tolower c) else tolower c) (if isupper c then tolower c else c)) all_bytes = true) by (vm_compute; reflexivity).
      pose proof (byte_forall _ F c) as K. cbv beta in K. apply Nat.ltb_lt in A. rewrite A in K. cbn [negb orb] in K. repeat (apply andb_true_iff in K as [K ?]).
      split; [apply Nat.ltb_lt; exact K|]. split; [apply eqb_prop; assumption|apply ceqt; assumption]. }
    destruct A2 as (A2 & A3 & A4). rewrite (san_ascii _ _ _ _ A), (san_ascii _ _ _ _ A2), A3. destruct (quote_like c); [apply IH|].
    unfold put. rewrite A4. cbv zeta. destruct (_ && _), sp; rewrite !IH; reflexivity.
  - destruct (accent_byte p c A) as (L & LA & N1 & N2 & N3). destruct (accented_ascii p c A) as [C1 C2]. rewrite (latin_page p L), (san_ascii _ _ _ _ C1), C2.
    change ([byte 195; byte (128 + p mod 64)] ++ s) with (byte 195 :: byte (128 + p mod 64) :: s). cbn [san].
    assert (M : p mod 64 = p - 192) by (symmetry; apply (Nat.mod_unique p 64 3); lia).
    change (ceq (byte 195) SQ || ceq (byte 195) DQ || ceq (byte 195) BT) with false. change (ceq (byte 195) (byte 194)) with false. change (ceq (byte 195) (byte 226)) with false.
    change (ceq (byte 195) (byte 204)) with false. change (ceq (byte 195) (byte 205)) with false. change (ceq (byte 195) (byte 195)) with true. cbn [andb].
    rewrite (byte_ne (128 + p mod 64) 134), (byte_ne (128 + p mod 64) 166), (byte_ne (128 + p mod 64) 159) by lia. cbn [orb]. rewrite LA. apply put_ext. exact IH.
  - assert (E : forall x, x = byte 134 \/ x = byte 166 -> san sp last (byte 195 :: x :: s) = "a"%char :: "e"%char :: san sp false s) by (intros x [-> | ->]; reflexivity).
    assert (U : exists x, (x = byte 134 \/ x = byte 166) /\ utf8_2 p = [byte 195; x]) by (destruct P as [-> | ->]; [exists (byte 134)|exists (byte 166)]; split; auto).
    destruct U as (x & X & ->). change ([byte 195; x] ++ s) with (byte 195 :: x :: s). rewrite (E x X), IH.
    change (B "ae" ++ t) with ("a"%char :: "e"%char :: t). rewrite (san_ascii _ _ "a"%char) by (vm_compute; lia). change (quote_like "a") with false.
    unfold put. rewrite !(san_ascii _ _ "e"%char) by (vm_compute; lia). change (quote_like "e") with false. unfold put. subst sp. destruct m; reflexivity.
  - change (utf8_2 223 ++ s) with (byte 195 :: byte 159 :: s). change (san sp last (byte 195 :: byte 159 :: s)) with ("s"%char :: "s"%char :: san sp false s). rewrite IH.
    change (B "ss" ++ t) with ("s"%char :: "s"%char :: t). rewrite (san_ascii _ _ "s"%char) by (vm_compute; lia). change (quote_like "s") with false.
    unfold put. rewrite !(san_ascii _ _ "s"%char) by (vm_compute; lia). change (quote_like "s") with false. unfold put. subst sp. destruct m; reflexivity.
  - rewrite <- IH. destruct (Nat.lt_ge_cases p 832) as [L|L].
    + assert (D : p / 64 = 12) by (symmetry; apply (Nat.div_unique p 64 12 (p - 768)); lia). assert (M : p mod 64 = p - 768) by (symmetry; apply (Nat.mod_unique p 64 12); lia).
      unfold utf8_2. rewrite D, M. change ([ascii_of_nat (192 + 12); ascii_of_nat (128 + (p - 768))] ++ s) with (byte 204 :: byte (128 + (p - 768)) :: s).
      assert (R : nat_of_ascii (byte (128 + (p - 768))) = 128 + (p - 768)) by (unfold byte; apply nat_ascii_embedding; lia).
      generalize dependent (byte (128 + (p - 768))). intros x R. cbn [san].
      change (ceq (byte 204) SQ || ceq (byte 204) DQ || ceq (byte 204) BT) with false. change (ceq (byte 204) (byte 194)) with false. change (ceq (byte 204) (byte 226)) with false.
      change (ceq (byte 204) (byte 204)) with true. cbn [andb]. rewrite R. replace (128 <=? _) with true by (symmetry; apply Nat.leb_le; lia). replace (_ <=? 191) with true by (symmetry; apply Nat.leb_le; lia). reflexivity.
    + assert (D : p / 64 = 13) by (symmetry; apply (Nat.div_unique p 64 13 (p - 832)); lia). assert (M : p mod 64 = p - 832) by (symmetry; apply (Nat.mod_unique p 64 13); lia).
      unfold utf8_2. rewrite D, M. change ([ascii_of_nat (192 + 13); ascii_of_nat (128 + (p - 832))] ++ s) with (byte 205 :: byte (128 + (p - 832)) :: s).
      assert (R : nat_of_ascii (byte (128 + (p - 832))) = 128 + (p - 832)) by (unfold byte; apply nat_ascii_embedding; lia).
      generalize dependent (byte (128 + (p - 832))). intros x R. cbn [san].
      change (ceq (byte 205) SQ || ceq (byte 205) DQ || ceq (byte 205) BT) with false. change (ceq (byte 205) (byte 194)) with false. change (ceq (byte 205) (byte 226)) with false.
      change (ceq (byte 205) (byte 204)) with false. change (ceq (byte 205) (byte 205)) with true. cbn [andb]. rewrite R.
      replace (128 <=? _) with true by (symmetry; apply Nat.leb_le; lia). replace (_ <=? 175) with true by (symmetry; apply Nat.leb_le; lia). reflexivity.
Qed.

(** ** Texts *)
Lemma split_ge (acc : str) : forall p s q, acc ++ s = p ++ q -> length acc <= length p -> exists p', p = acc ++ p' /\ s = p' ++ q.
Proof.
  induction acc as [|c acc IH]; intros p s q E L; [exists p; auto|]. destruct p as [|d p]; [cbn in L; lia|]. injection E as <- E. cbn in L.
  destruct (IH p s q E) as (p' & -> & ->); [lia|]. exists p'. auto.
Qed.
Definition T (s : str) : node := Node (Text s) [].
Lemma glue_T2 a b l : glue (T a :: T b :: l) = glue (T (a ++ b) :: l).
Proof.
  destruct a as [|x a]; [reflexivity|]. destruct b as [|y b]; [rewrite app_nil_r; reflexivity|].
  change (glue (T (x :: a) :: T (y :: b) :: l)) with (match glue (T (y :: b) :: l) with m :: g => match text_leaf m with Some t => Node (Text ((x :: a) ++ t)) [] :: g | None => T (x :: a) :: m :: g end | [] => [T (x :: a)] end).
  change (glue (T ((x :: a) ++ y :: b) :: l)) with (match glue l with m :: g => match text_leaf m with Some t => Node (Text (((x :: a) ++ y :: b) ++ t)) [] :: g | None => T ((x :: a) ++ y :: b) :: m :: g end | [] => [T ((x :: a) ++ y :: b)] end).
  change (glue (T (y :: b) :: l)) with (match glue l with m :: g => match text_leaf m with Some t => Node (Text ((y :: b) ++ t)) [] :: g | None => T (y :: b) :: m :: g end | [] => [T (y :: b)] end).
  destruct (glue l) as [|m g]; [reflexivity|]. destruct (text_leaf m) as [t|]; cbn [text_leaf T]; [rewrite <- app_assoc; reflexivity|reflexivity].
Qed.
Lemma glue_if a b l : glue (T a :: text_if b ++ l) = glue (T (a ++ b) :: l).
Proof. destruct b as [|y b]; [rewrite app_nil_r; reflexivity|]. apply (glue_T2 a (y :: b)). Qed.
Lemma glue_congr n l l' : glue l = glue l' -> glue (n :: l) = glue (n :: l').
Proof. intros E. cbn [glue]. rewrite E. reflexivity. Qed.
Lemma link_node_leaf cfg x : text_leaf (link_node cfg x) = None.
Proof. unfold link_node. destruct (parse_wiki x) as [[? ?] ?]. reflexivity. Qed.
Lemma bb_no_start : forall a b c r, "]"%char :: "]"%char :: r = a ++ B "[[" ++ b ++ c -> 2 <= length a.
Proof. intros [|? [|? a]] b c r E; cbn in E; try discriminate E; cbn; lia. Qed.
Definition safe (acc s : str) : Prop := forall a x b, acc ++ s = a ++ B "[[" ++ x ++ B "]]" ++ b -> valid x -> length acc <= length a.
Section Rebuild.
Variable cfg : config.
Variable L : str -> node -> Prop.
Hypothesis HL : forall x, L x (link_node cfg x).
Lemma rebuild_reads fuel : forall acc s, length s < fuel -> safe acc s ->
  exists l p ns, rebuild cfg fuel s = Some l /\ reads (acc ++ s) p /\ expected L p ns /\ glue (T acc :: l) = glue ns.
Proof.
  induction fuel as [|fuel IH]; intros acc s Lf S; [lia|]. cbn [rebuild]. destruct (strstr (B "[[") s) as [a|] eqn:E.
  - apply strstr_some in E as (pre & r & -> & <- & M).
    assert (F1 : firstn (length pre) (pre ++ B "[[" ++ r) = pre) by (rewrite firstn_app, firstn_all, Nat.sub_diag; cbn [firstn]; apply app_nil_r).
    assert (F2 : skipn (length pre) (pre ++ B "[[" ++ r) = B "[[" ++ r) by (rewrite skipn_app, skipn_all, Nat.sub_diag; reflexivity).
    assert (F3 : skipn (length pre + 2) (pre ++ B "[[" ++ r) = r) by (rewrite skipn_app, skipn_all2 by lia; replace (length pre + 2 - length pre) with 2 by lia; reflexivity).
    rewrite F3. cbv zeta.
    assert (S2 : forall a x b, acc ++ pre ++ B "[[" ++ r = a ++ B "[[" ++ x ++ B "]]" ++ b -> valid x -> exists a', a = acc ++ pre ++ a' /\ B "[[" ++ r = a' ++ B "[[" ++ x ++ B "]]" ++ b).
    { intros a x b Ea V. pose proof (S a x b Ea V) as Sa. destruct (split_ge acc a _ _ Ea Sa) as (p & -> & Ep). pose proof (M _ _ Ep) as Mp.
      destruct (split_ge pre p _ _ Ep Mp) as (p' & -> & Ep'). exists p'. auto. }
    destruct (strstr (B "]]") r) as [k|] eqn:E2.
    + apply strstr_some in E2 as (x & rest & -> & <- & M2).
      assert (G1 : firstn (length x) (x ++ B "]]" ++ rest) = x) by (rewrite firstn_app, firstn_all, Nat.sub_diag; cbn [firstn]; apply app_nil_r).
      assert (G2 : skipn (length x + 2) (x ++ B "]]" ++ rest) = rest) by (rewrite skipn_app, skipn_all2 by lia; replace (length x + 2 - length x) with 2 by lia; reflexivity).
      rewrite G1, G2, F1. assert (Lr : length rest < fuel) by (rewrite !app_length in Lf; cbn in Lf; lia).
      destruct x as [|x0 x]; cbn [length Nat.eqb].
      * (* empty *)
        destruct (IH (acc ++ pre ++ B "[[]]") rest Lr) as (l & p & ns & R & RD & EX & GL).
        { intros a y b Ea V. rewrite <- !app_assoc in Ea. change (B "[[]]" ++ rest) with (B "[[" ++ B "]]" ++ rest) in Ea.
          destruct (S2 a y b Ea V) as (a' & -> & Ea'). rewrite !app_length. cbn [length B list_ascii_of_string].
          destruct a' as [|c0 [|c1 [|c2 [|c3 a']]]]; try discriminate Ea'; [|cbn [length]; lia]. exfalso. cbn [app] in Ea'.
          apply app_inv_head in Ea'. destruct V as [V1 V2]. destruct y as [|y0 y]; [contradiction|]. destruct y as [|y1 y].
          - injection Ea' as <- Ea'. specialize (V2 [] (B "]")). cbn in V2. specialize (V2 eq_refl). lia.
          - injection Ea' as <- <- Ea'. specialize (V2 [] (y ++ B "]]")). specialize (V2 eq_refl). cbn in V2. lia. }
        rewrite R. eexists. exists p, ns. split; [reflexivity|]. split; [rewrite <- !app_assoc in RD; exact RD|]. split; [exact EX|].
        rewrite glue_if. rewrite <- GL. change (text_node (B "[[]]")) with (T (B "[[]]")). rewrite glue_T2, <- app_assoc. reflexivity.
      * assert (V : valid (x0 :: x)).
        { split; [discriminate|]. intros a b Ea. apply (M2 a (b ++ rest)). rewrite app_assoc, Ea, <- !app_assoc. reflexivity. }
        destruct (IH [] rest Lr) as ([|n0 l] & p & ns & R & RD & EX & GL); [intros a y b _ _; cbn; lia|..].
        -- rewrite R. destruct p as [run2 lp]. eexists. exists (acc ++ pre, (x0 :: x, run2) :: lp), (T (acc ++ pre) :: link_node cfg (x0 :: x) :: ns).
           split; [reflexivity|]. split.
           { replace (acc ++ pre ++ B "[[" ++ (x0 :: x) ++ B "]]" ++ rest) with ((acc ++ pre) ++ B "[[" ++ (x0 :: x) ++ B "]]" ++ rest) by (rewrite <- !app_assoc; reflexivity).
             apply Reads_link; [exact V| |exact RD]. intros a y b Ea Vy. rewrite <- app_assoc in Ea. destruct (S2 a y b Ea Vy) as (a' & -> & _). rewrite !app_length. lia. }
           split; [constructor; [apply HL|exact EX]|]. rewrite glue_if. apply glue_congr. cbn [glue]. rewrite (link_node_leaf cfg (x0 :: x)). f_equal. cbn in GL. rewrite GL. reflexivity.
        -- rewrite R. destruct p as [run2 lp]. eexists. exists (acc ++ pre, (x0 :: x, run2) :: lp), (T (acc ++ pre) :: link_node cfg (x0 :: x) :: ns).
           split; [reflexivity|]. split.
           { replace (acc ++ pre ++ B "[[" ++ (x0 :: x) ++ B "]]" ++ rest) with ((acc ++ pre) ++ B "[[" ++ (x0 :: x) ++ B "]]" ++ rest) by (rewrite <- !app_assoc; reflexivity).
             apply Reads_link; [exact V| |exact RD]. intros a y b Ea Vy. rewrite <- app_assoc in Ea. destruct (S2 a y b Ea Vy) as (a' & -> & _). rewrite !app_length. lia. }
           split; [constructor; [apply HL|exact EX]|]. rewrite glue_if. apply glue_congr.
           change (glue (link_node cfg (x0 :: x) :: n0 :: l)) with (match text_leaf (link_node cfg (x0 :: x)) with None => link_node cfg (x0 :: x) :: glue (n0 :: l) | Some [] => glue (n0 :: l) | Some s => match glue (n0 :: l) with m :: g => match text_leaf m with Some t => Node (Text (s ++ t)) [] :: g | None => link_node cfg (x0 :: x) :: m :: g end | [] => [link_node cfg (x0 :: x)] end end).
           cbn [glue]. rewrite (link_node_leaf cfg (x0 :: x)). f_equal. cbn [T glue text_leaf] in GL. exact GL.
    + eexists. exists (acc ++ pre ++ B "[[" ++ r, []), [T (acc ++ pre ++ B "[[" ++ r)]. split; [reflexivity|]. split.
      { apply Reads_text. intros a x b Ea V. destruct (S2 a x b Ea V) as (a' & _ & Ea'). apply (strstr_none _ _ E2 (skipn 2 (a' ++ B "[[" ++ x)) b).
        destruct a' as [|c0 [|c1 a']]; cbn [app] in Ea'; [|injection Ea' as _ ->|injection Ea' as _ _ ->].
        - apply app_inv_head in Ea'. rewrite Ea'. cbn. reflexivity.
        - cbn. reflexivity.
        - cbn [app skipn]. rewrite <- !app_assoc. reflexivity. }
      split; [constructor|]. rewrite F1, F2, glue_if. change (text_node (B "[[" ++ r)) with (T (B "[[" ++ r)). rewrite glue_T2, <- app_assoc. reflexivity.
  - eexists. exists (acc ++ s, []), [T (acc ++ s)]. split; [reflexivity|]. split.
    { apply Reads_text. intros a x b Ea V. pose proof (S a x b Ea V) as Sa. destruct (split_ge acc a _ _ Ea Sa) as (p & -> & Ep). exact (strstr_none _ _ E p _ Ep). }
    split; [constructor|]. rewrite <- (app_nil_r (text_if s)), glue_if. reflexivity.
Qed.
Lemma process_eq k ch : process cfg (Node k ch) = match k with
  | Text s => match strstr (B "[[") s with Some _ => text_nodes cfg s | None => [Node k (concat (map (process cfg) ch))] end
  | _ => [Node k (concat (map (process cfg) ch))] end.
Proof.
  assert (A : (fix all (l : list node) := match l with [] => [] | c :: l => process cfg c ++ all l end) ch = concat (map (process cfg) ch)).
  { induction ch as [|c ch IH]; [reflexivity|]. cbn [map concat]. rewrite <- IH. reflexivity. }
  rewrite <- A. reflexivity.
Qed.
Lemma process_linked n : leaves n -> linked L n (process cfg n).
Proof.
  induction n as [k ch IH] using node_ind'. intros Lv. inversion Lv as [s Es|k' ch' NT FL]; subst.
  - rewrite process_eq. cbn [map concat]. destruct (rebuild_reads (S (length s)) [] s) as (l & p & ns & R & RD & EX & GL); [lia|intros a x b _ _; cbn; lia|].
    cbn [app] in RD. apply (Linked_text L s p ns); [exact RD|exact EX|]. cbn [T glue text_leaf] in GL. rewrite <- GL.
    unfold text_nodes. rewrite R. destruct (strstr (B "[[") s) eqn:E; [reflexivity|]. cbn [rebuild] in R. rewrite E in R. injection R as <-. destruct s; reflexivity.
  - rewrite process_eq. replace (match k with Text s => _ | _ => [Node k (concat (map (process cfg) ch))] end) with [Node k (concat (map (process cfg) ch))] by (destruct k; try reflexivity; discriminate NT).
    apply Linked_other; [exact NT|]. clear Lv NT. induction ch as [|c ch IHc]; [constructor|]. inversion IH; subst. inversion FL; subst. cbn [map]. constructor; auto.
Qed.
End Rebuild.

(** ** The reading is unique *)
Lemma cut_valid x x' rest rest' : valid x -> valid x' -> x ++ B "]]" ++ rest = x' ++ B "]]" ++ rest' -> x = x' /\ rest = rest'.
Proof.
  assert (A : forall x x' rest rest', valid x -> x ++ B "]]" ++ rest = x' ++ B "]]" ++ rest' -> length x <= length x').
  { clear. intros x x' rest rest' [_ V] E. destruct (Nat.le_gt_cases (length x) (length x')) as [|L]; [assumption|]. symmetry in E.
    rewrite !app_assoc in E. destruct (split_ge (x' ++ B "]]") (x ++ B "]]") rest' rest) as (q & Q & _); [exact E|rewrite !app_length; cbn; lia|].
    apply (V x' q). rewrite Q, <- app_assoc. reflexivity. }
  intros V V' E. pose proof (A _ _ _ _ V E). pose proof (A _ _ _ _ V' (eq_sym E)).
  destruct (split_ge x x' _ _ E) as (q & -> & Q); [assumption|]. rewrite app_length in *. destruct q as [|c q]; [|cbn in *; lia]. rewrite app_nil_r. split; [reflexivity|].
  cbn [app] in Q. injection Q as Q. exact Q.
Qed.
Lemma reads_uniq s p p' : reads s p -> reads s p' -> p = p'.
Proof.
  intros H. revert p'. induction H as [s N|run x rest run2 l V LM H IH]; intros p' H'.
  - inversion H' as [s' N'|run x rest run2 l V LM H2]; subst; [reflexivity|]. destruct (N _ _ _ eq_refl V).
  - inversion H' as [s' N' E|run' x' rest' run2' l' V' LM' H2 E]; subst; [destruct (N' _ _ _ eq_refl V)|].
    pose proof (LM _ _ _ (eq_sym E) V'). pose proof (LM' _ _ _ E V).
    destruct (split_ge run run' _ _ (eq_sym E)) as (q & -> & Q); [assumption|]. rewrite app_length in *. destruct q as [|c q]; [|cbn in *; lia]. rewrite app_nil_r in *. cbn [app] in Q.
    injection Q as Q. destruct (cut_valid x x' rest rest' V V' Q) as [-> ->]. specialize (IH _ H2). injection IH as -> ->. reflexivity.
Qed.
(** ** Links within links *)
Lemma flat_eq b k ch : flat_links b (Node k ch) <-> match k with Link _ _ => b = false /\ Forall (flat_links true) ch | _ => Forall (flat_links b) ch end.
Proof.
  assert (A : forall b l, (fix all (b : bool) (l : list node) := match l with [] => True | c :: l => flat_links b c /\ all b l end) b l <-> Forall (flat_links b) l).
  { intros x l. induction l as [|c l IH]; [split; auto|]. rewrite Forall_cons_iff, <- IH. reflexivity. }
  destruct k; cbn [flat_links]; rewrite A; reflexivity.
Qed.
Lemma quiet_eq b k ch : quiet_links b (Node k ch) <-> match k with Text s => b = true -> forall x y, s <> x ++ B "[[" ++ y | Link _ _ => Forall (quiet_links true) ch | _ => Forall (quiet_links b) ch end.
Proof.
  assert (A : forall b l, (fix all (b : bool) (l : list node) := match l with [] => True | c :: l => quiet_links b c /\ all b l end) b l <-> Forall (quiet_links b) l).
  { intros x l. induction l as [|c l IH]; [split; auto|]. rewrite Forall_cons_iff, <- IH. reflexivity. }
  destruct k; cbn [quiet_links]; rewrite ?A; reflexivity.
Qed.
Lemma link_flat cfg x : flat_links false (link_node cfg x).
Proof. unfold link_node. destruct (parse_wiki x) as [[? ?] ?]. cbn. auto. Qed.
Lemma text_flat b s : flat_links b (Node (Text s) []).
Proof. cbn. exact I. Qed.
Lemma text_if_flat b s : Forall (flat_links b) (text_if s).
Proof. destruct s; [constructor|]. constructor; [apply text_flat|constructor]. Qed.
Lemma rebuild_flat cfg fuel : forall s l, rebuild cfg fuel s = Some l -> Forall (flat_links false) l.
Proof.
  induction fuel as [|fuel IH]; intros s l H; [discriminate H|]. cbn [rebuild] in H. destruct (strstr (B "[[") s); [|injection H as <-; apply text_if_flat].
  destruct (strstr (B "]]") _); [|injection H as <-; apply Forall_app; split; [apply text_if_flat|constructor; [apply text_flat|constructor]]].
  destruct (rebuild cfg fuel _) eqn:R; [|discriminate H]. injection H as <-. apply Forall_app. split; [apply text_if_flat|]. constructor; [|exact (IH _ _ R)].
  destruct (_ =? 0); [apply text_flat|apply link_flat].
Qed.
Lemma process_flat cfg n : forall b, leaves n -> flat_links b n -> quiet_links b n -> Forall (flat_links b) (process cfg n).
Proof.
  induction n as [k ch IH] using node_ind'. intros b Lv F Q. rewrite process_eq.
  assert (A : forall b', Forall leaves ch -> Forall (flat_links b') ch -> Forall (quiet_links b') ch -> Forall (flat_links b') (concat (map (process cfg) ch))).
  { intros b' L1 F1 Q1. clear Lv F Q. induction ch as [|c ch IHc]; [constructor|]. inversion IH; subst. inversion L1; subst. inversion F1; subst. inversion Q1; subst.
    cbn [map concat]. apply Forall_app. split; auto. }
  rewrite flat_eq in F. rewrite quiet_eq in Q. inversion Lv as [s|k' ch' NT FL]; subst.
  - destruct (strstr (B "[[") s) eqn:E.
    + destruct b; [apply strstr_some in E as (x & y & -> & _); destruct (Q eq_refl x y eq_refl)|]. unfold text_nodes. destruct (rebuild cfg _ s) eqn:R; [exact (rebuild_flat _ _ _ _ R)|constructor].
    + constructor; [apply text_flat|constructor].
  - destruct k; try discriminate NT; (constructor; [rewrite flat_eq|constructor]); try (apply A; assumption). destruct F as [F1 F2]. split; [exact F1|apply A; assumption].
Qed.
(** ** No letter is lost *)
Lemma put_letters m last c k x : (forall l, filter isalnum (k l) = x) -> nat_of_ascii c < 128 -> isupper c = false -> filter isalnum (put (space_char m) last c k) = (if isalnum c then [c] else []) ++ x.
Proof.
  intros H A U. unfold put. rewrite U. cbv zeta. destruct (isalnum c) eqn:AL; cbn [negb andb].
  - assert (NS : is_sp (space_char m) c = false) by (destruct m; cbn; try reflexivity; apply ceq_neq; intros ->; discriminate AL).
    rewrite NS. destruct (space_char m); cbn [filter]; rewrite AL, H; reflexivity.
  - assert (SA : forall p, space_char m = Some p -> isalnum p = false) by (destruct m; intros p [= <-]; reflexivity).
    destruct (negb (ceq c "/") && negb (ceq c ".")).
    + destruct (space_char m) as [p|]; [|apply H]. cbn [is_sp]. rewrite ceq_refl. destruct last; [apply H|]. cbn [filter]. rewrite (SA p eq_refl). apply H.
    + destruct (space_char m) as [p|]; cbn [is_sp]; [destruct (ceq c p); [destruct last|]|]; cbn [filter]; rewrite ?AL; apply H.
Qed.
Lemma spelled_plain s t : spelled s t -> Forall (fun c => nat_of_ascii c < 128 /\ isupper c = false) t.
Proof.
  intros H. induction H as [|c s t A H IH|p c s t A H IH|p s t P H IH|s t H IH|p s t P H IH]; [constructor|..].
  - constructor; [|exact IH].
    assert (F : forallb (fun c => negb (nat_of_ascii c <? 128) || (nat_of_ascii (tolower c) <? 128) && negb (isupper (tolower c))) all_bytes = true) by (vm_compute; reflexivity).
    pose proof (byte_forall _ F c) as K. cbv beta in K. apply Nat.ltb_lt in A. rewrite A in K. cbn [negb orb] in K. apply andb_true_iff in K as [K1 K2]. split; [apply Nat.ltb_lt; exact K1|apply negb_true_iff; exact K2].
  - constructor; [|exact IH]. destruct A as (rs & lo & hi & I & _). cbn [letters_of In] in I. repeat (destruct I as [I|I]; [injection I as <- _; split; [vm_compute; lia|reflexivity]|]). contradiction.
  - repeat constructor; try exact IH; try (vm_compute; lia).
  - repeat constructor; try exact IH; try (vm_compute; lia).
  - exact IH.
Qed.
Lemma page_letters cfg p t : sanitize cfg = true -> spelled p t -> filter isalnum (page_part cfg p) = filter isalnum t.
Proof.
  intros S H. unfold page_part. rewrite S, (spelled_san _ _ _ H). set (m := mode_of cfg).
  assert (A : forall last, filter isalnum (san (space_char m) last t) = filter isalnum t).
  { pose proof (spelled_plain _ _ H) as F. clear H. induction F as [|c t [F1 F2] F IH]; intros last; [reflexivity|]. rewrite san_ascii by exact F1. cbn [filter].
    destruct (quote_like c) eqn:Q.
    - rewrite IH. unfold quote_like in Q. apply orb_true_iff in Q as [Q|Q]; [apply orb_true_iff in Q as [Q|Q]|]; apply ceqt in Q as ->; reflexivity.
    - rewrite (put_letters m last c _ (filter isalnum t)); [destruct (isalnum c); reflexivity|exact IH|exact F1|exact F2]. }
  rewrite <- (A true). destruct (trim_cases (space_char m) (san (space_char m) true t)) as [[E _]|(c & E & C)]; [rewrite E; reflexivity|].
  rewrite E at 2. rewrite filter_app. assert (AL : isalnum c = false) by (destruct m; try discriminate C; apply ceqt in C as ->; reflexivity). cbn [filter]. rewrite AL, app_nil_r. reflexivity.
Qed.
Lemma wcut (c : ascii) x : forall y r s, ~ In c x -> ~ In c y -> x ++ c :: r = y ++ c :: s -> x = y /\ r = s.
Proof.
  induction x as [|a x IH]; intros [|b y] r s N1 N2 E; cbn [app] in E.
  - injection E as <-. auto.
  - injection E as <- _. destruct N2. left. reflexivity.
  - injection E as -> _. destruct N1. left. reflexivity.
  - injection E as <- E. destruct (IH y r s) as [-> ->]; auto; intros J; [apply N1|apply N2]; right; exact J.
Qed.
