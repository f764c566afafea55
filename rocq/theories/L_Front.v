(** Lemmas for C231-C239. *)
From Verif Require Import Base BaseL M_Meta L_MetaParse S_Pass L_Pass M_Front S_Front.

(** ** White space *)

Lemma span_white (a : str) c r : whites a -> isspace c = false -> span isspace (a ++ c :: r) = (a, c :: r).
Proof. intros F N. induction F as [|x s X F IH]; cbn [app span]; [rewrite N; reflexivity|]. rewrite X, IH. reflexivity. Qed.

Lemma span_whites (a : str) : whites a -> span isspace a = (a, []).
Proof. induction 1 as [|x s X F IH]; [reflexivity|]. cbn [span]. rewrite X, IH. reflexivity. Qed.

Lemma rtrim_whites b : whites b -> rtrim b = [].
Proof. induction 1 as [|x s X F IH]; [reflexivity|]. cbn [rtrim]. rewrite IH, X. reflexivity. Qed.

Lemma rtrim_end r c b : isspace c = false -> whites b -> rtrim (r ++ c :: b) = r ++ [c].
Proof.
  intros N F. induction r as [|x r IH]; cbn [app rtrim].
  - rewrite (rtrim_whites b F), N. reflexivity.
  - rewrite IH. destruct r; reflexivity.
Qed.

Lemma trim_in a x b : whites a -> solid x -> whites b -> trim_in_place (a ++ x ++ b) = a ++ x.
Proof.
  intros Wa [(c & r & E & N) (d & q & E' & N')] Wb. unfold trim_in_place.
  assert (span isspace (a ++ x ++ b) = (a, x ++ b)) as ->.
  { rewrite E. cbn [app]. apply span_white; assumption. }
  destruct (x ++ b) as [|y z] eqn:Q; [rewrite E in Q; discriminate Q|].
  rewrite <- Q, E', <- app_assoc. cbn [app]. rewrite rtrim_end by assumption. reflexivity.
Qed.

Lemma trimmed_in a x b : whites a -> solid x -> whites b -> trimmed (a ++ x ++ b) = x.
Proof.
  intros Wa Sx Wb. unfold trimmed. rewrite trim_in by assumption. destruct Sx as [(c & r & -> & N) _]. rewrite span_white by assumption. reflexivity.
Qed.

Lemma trimmed_solid x : solid x -> trimmed x = x.
Proof. intro Sx. pose proof (trimmed_in [] x [] (Forall_nil _) Sx (Forall_nil _)) as H. cbn [app] in H. rewrite app_nil_r in H. exact H. Qed.

Lemma trim_in_solid x : solid x -> trim_in_place x = x.
Proof. intro Sx. pose proof (trim_in [] x [] (Forall_nil _) Sx (Forall_nil _)) as H. cbn [app] in H. rewrite app_nil_r in H. exact H. Qed.

(** Every string is white, or solid between white ends. *)
Lemma white_cases s : whites s \/ exists a x b, s = a ++ x ++ b /\ whites a /\ solid x /\ whites b.
Proof.
  induction s as [|c s IH]; [left; constructor|]. destruct (isspace c) eqn:C.
  - destruct IH as [W|(a & x & b & -> & Wa & Sx & Wb)].
    + left. constructor; assumption.
    + right. exists (c :: a), x, b. split; [reflexivity|]. split; [constructor; assumption|]. split; assumption.
  - right. destruct IH as [W|(a & x & b & -> & Wa & Sx & Wb)].
    + exists [], [c], s. split; [reflexivity|]. split; [constructor|]. split; [|exact W]. split; [exists c, []; auto|exists c, []; auto].
    + exists [], (c :: a ++ x), b. split; [cbn [app]; rewrite <- app_assoc; reflexivity|]. split; [constructor|]. split; [|exact Wb]. split.
      * eexists c, _. split; [reflexivity|exact C].
      * destruct Sx as [_ (d & q & -> & D)]. exists d, (c :: a ++ q). split; [cbn [app]; rewrite <- app_assoc; reflexivity|exact D].
Qed.

Lemma trimmed_whites s : whites s -> trimmed s = [].
Proof. intro W. unfold trimmed, trim_in_place. rewrite (span_whites s W). rewrite (span_whites s W). reflexivity. Qed.

Lemma trimmed_nil s : trimmed s = [] -> whites s.
Proof.
  intro H. destruct (white_cases s) as [W|(a & x & b & -> & Wa & Sx & Wb)]; [exact W|].
  rewrite trimmed_in in H by assumption. subst x. destruct Sx as [(c & r & E & _) _]. discriminate E.
Qed.

(** ** Lines *)

Lemma joined_lines s : joined (fst (lines_of s)) (snd (lines_of s)) = s.
Proof.
  induction s as [|c s IH]; [reflexivity|]. cbn [lines_of]. destruct (lines_of s) as [ls t]. cbn [fst snd] in IH.
  destruct (ceq c NL) eqn:C.
  - apply ceq_eq in C. subst c. unfold joined in *. cbn [fst snd map concat app]. rewrite IH. reflexivity.
  - destruct ls as [|l ls]; unfold joined in *; cbn [fst snd map concat app] in *; rewrite IH; reflexivity.
Qed.

Lemma lines_row l s : one_line l -> lines_of (l ++ NL :: s) = (l :: fst (lines_of s), snd (lines_of s)).
Proof.
  induction l as [|c l IH]; intro N; cbn [app lines_of].
  - destruct (lines_of s) as [ls t]. cbn [ceq]. rewrite ceq_refl. reflexivity.
  - rewrite IH by (intro I; apply N; right; exact I).
    rewrite (proj2 (ceq_neq c NL)) by (intro Q; apply N; left; exact Q). reflexivity.
Qed.

Lemma lines_tail t : one_line t -> lines_of t = ([], t).
Proof.
  induction t as [|c t IH]; intro N; [reflexivity|]. cbn [lines_of]. rewrite IH by (intro I; apply N; right; exact I).
  rewrite (proj2 (ceq_neq c NL)) by (intro Q; apply N; left; exact Q). reflexivity.
Qed.

Lemma lines_rows ls s : Forall one_line ls -> lines_of (rows ls ++ s) = (ls ++ fst (lines_of s), snd (lines_of s)).
Proof.
  induction 1 as [|l ls N F IH]; [cbn [rows map concat app]; destruct (lines_of s); reflexivity|].
  unfold rows in *. cbn [map concat]. unfold row at 1. rewrite <- !app_assoc. cbn [app]. rewrite lines_row by exact N. rewrite IH. reflexivity.
Qed.

Lemma joined_rows ls t : joined ls t = rows ls ++ t.
Proof. reflexivity. Qed.

Lemma lines_oneline s : Forall one_line (fst (lines_of s)) /\ one_line (snd (lines_of s)).
Proof.
  induction s as [|c s [IH1 IH2]]; [split; [constructor|intros []]|]. cbn [lines_of]. destruct (lines_of s) as [ls t]. cbn [fst snd] in *.
  destruct (ceq c NL) eqn:C.
  - split; [constructor; [intros []|exact IH1]|exact IH2].
  - apply ceq_neq in C. destruct ls as [|l ls]; cbn [fst snd].
    + split; [constructor|]. intros [Q|I]; [exact (C Q)|exact (IH2 I)].
    + inversion IH1 as [|? ? Nl F]; subst. split; [|exact IH2]. constructor; [|exact F]. intros [Q|I]; [exact (C Q)|exact (Nl I)].
Qed.

Lemma skip_len (a b : str) : skipn (length (a ++ b) - length b) (a ++ b) = b.
Proof. rewrite app_length. replace (length a + length b - length b) with (length a) by lia. rewrite skipn_app, skipn_all, Nat.sub_diag. reflexivity. Qed.

Lemma clip_short l : length l <= 1023 -> clip l = l.
Proof. intro H. unfold clip. apply firstn_all2. exact H. Qed.

(** ** Pairs *)

Definition odd_bytes : list ascii := [NUL; "*"; "["; "<"; "{"; "#"; "-"; "+"; "%"; ":"; "]"; "/"; "."]%char.

Lemma alpha_byte c : isalpha c = true -> isspace c = false /\ isdigit c = false /\ existsb (ceq c) odd_bytes = false.
Proof.
  intro A. pose proof (byte_forall (fun c => implb (isalpha c) (negb (isspace c) && negb (isdigit c) && negb (existsb (ceq c) odd_bytes))) eq_refl c) as H.
  cbv beta in H. rewrite A in H. cbn [implb] in H. apply andb_prop in H. destruct H as [H H3]. apply andb_prop in H. destruct H as [H1 H2].
  apply negb_true_iff in H1, H2, H3. auto.
Qed.

Definition key_odd : list ascii := [NL; "["; "<"; "{"; ":"; "]"; "/"]%char.

Lemma key_bytes c : key_byte c -> existsb (ceq c) key_odd = false.
Proof.
  intros [A|[-> | [-> | ->]]]; try reflexivity.
  pose proof (byte_forall (fun c => implb (isalnum c) (negb (existsb (ceq c) key_odd))) eq_refl c) as H. cbv beta in H. rewrite A in H. cbn [implb] in H.
  apply negb_true_iff in H. exact H.
Qed.

Lemma key_not k c : Forall key_byte k -> In c key_odd -> ~ In c k.
Proof.
  intros F O I. rewrite Forall_forall in F. specialize (F c I). apply key_bytes in F.
  assert (existsb (ceq c) key_odd = true) as Q; [|congruence]. apply existsb_exists. exists c. split; [exact O|apply ceq_refl].
Qed.

Lemma within_skip c x a b : ~ In c a -> within (c :: x) (a ++ b) -> within (c :: x) b.
Proof.
  induction a as [|d a IH]; intros N W; [exact W|]. apply IH; [intro I; apply N; right; exact I|].
  destruct W as (u & w & E). destruct u as [|e u].
  - injection E as E _. exfalso. apply N. left. exact E.
  - injection E as _ E. exists u, w. exact E.
Qed.

Lemma holds_false x s : x <> [] -> ~ within x s -> holds_ x s = false.
Proof. intros N W. unfold holds_. rewrite (strstr_absent x s N); [reflexivity|exact W]. Qed.

Lemma holds_true x s : within x s -> holds_ x s = true.
Proof.
  intros (a & b & ->). unfold holds_. destruct (strstr x (a ++ x ++ b)) as [k|] eqn:E; [reflexivity|]. destruct (strstr_none _ _ E a b eq_refl).
Qed.

Lemma byte_false c s : ~ In c s -> has_byte c s = false.
Proof. intro N. unfold has_byte. rewrite (proj2 (strchr_none c s) N). reflexivity. Qed.

Lemma solid_app a b x : solid a -> solid b -> solid (a ++ x ++ b).
Proof.
  intros [(c & r & -> & C) _] [_ (d & q & -> & D)]. split.
  - eexists c, _. split; [reflexivity|exact C].
  - exists d. eexists. split; [rewrite !app_assoc; reflexivity|exact D].
Qed.

Lemma at_cons (c : ascii) s : at_ (c :: s) 0 = c.
Proof. reflexivity. Qed.

Lemma starts_head x c s : (forall r, x <> c :: r) -> x <> [] -> starts x (c :: s) = false.
Proof.
  intros N1 N2. apply bool_false. intro H. apply starts_spec in H. destruct H as [r E]. destruct x as [|d x]; [destruct (N2 eq_refl)|].
  injection E as -> _. exact (N1 x eq_refl).
Qed.

Lemma odd_not c d : existsb (ceq c) odd_bytes = false -> In d odd_bytes -> c <> d.
Proof.
  intros H I ->. assert (existsb (ceq d) odd_bytes = true) as Q; [|congruence]. apply existsb_exists. exists d. split; [exact I|apply ceq_refl].
Qed.

Lemma alpha_start c s : isalpha c = true -> passed (c :: s) = false /\ starts (B "{{TOC") (c :: s) = false /\ list_item (c :: s) = false /\ starts (B "---") (c :: s) = false /\ ceq c "%" = false.
Proof.
  intro A. destruct (alpha_byte c A) as (Sp & Dg & O).
  assert (forall d x, In d odd_bytes -> starts (d :: x) (c :: s) = false) as K.
  { intros d x I. apply starts_head; [|discriminate]. intros r Q. injection Q as Q _. exact (odd_not c d O I (eq_sym Q)). }
  split; [|split; [|split; [|split]]].
  - unfold passed. cbn [B String.list_ascii_of_string]. rewrite !K by (vm_compute; tauto). reflexivity.
  - apply K. vm_compute. tauto.
  - unfold list_item. rewrite at_cons, Dg. rewrite !(proj2 (ceq_neq _ _)) by (apply (odd_not c _ O); vm_compute; tauto). reflexivity.
  - apply K. vm_compute. tauto.
  - apply ceq_neq. apply (odd_not c _ O). vm_compute. tauto.
Qed.

Lemma pair_line_facts k v : plain_pair (k, v) -> exists c r, k = c :: r /\ isalpha c = true /\ solid (pair_line (k, v)) /\ one_line (pair_line (k, v)).
Proof.
  intros ((Sk & Fk & c & r & Ek & A) & Sv & Nv & _). cbn [fst snd] in *. exists c, r. split; [exact Ek|]. split; [exact A|]. unfold pair_line. cbn [fst snd]. split.
  - apply solid_app; assumption.
  - intro I. apply in_app_or in I. destruct I as [I|I]; [exact (key_not k NL Fk ltac:(vm_compute; tauto) I)|]. cbn [B String.list_ascii_of_string app] in I.
    destruct I as [I|[I|I]]; [discriminate I|discriminate I|exact (Nv I)].
Qed.

Lemma mmd_pair l p : plain_pair p -> clip l = pair_line p -> forall found ls items, mmd_lines found (l :: ls) items = mmd_lines true ls (p :: items).
Proof.
  destruct p as [k v]. intros P Ec found ls items. destruct (pair_line_facts k v P) as (c & r & Ek & A & Sl & _).
  destruct P as ((Sk & Fk & _) & Sv & Nv & Bv & Iv & Uv & Ln). cbn [fst snd] in *.
  cbn [mmd_lines]. rewrite Ec. rewrite (trimmed_solid _ Sl), (trim_in_solid _ Sl).
  assert (pair_line (k, v) = c :: (r ++ B ": " ++ v)) as El by (unfold pair_line; cbn [fst snd]; rewrite Ek; reflexivity).
  destruct (alpha_start c (r ++ B ": " ++ v) A) as (H1 & H2 & H3 & _). rewrite <- El in H1, H2, H3.
  rewrite H1, H2, H3.
  assert (holds_ (B "{i:") (pair_line (k, v)) = false) as ->.
  { apply holds_false; [discriminate|]. intro W. apply Iv. unfold pair_line in W. cbn [fst snd] in W.
    apply (within_skip "{"%char (B "i:") k) in W; [|apply key_not; [exact Fk|vm_compute; tauto]].
    apply (within_skip "{"%char (B "i:") (B ": ") v) in W; [exact W|]. vm_compute. intuition discriminate. }
  assert (cut ":" (pair_line (k, v)) = Some (k, SP :: v)) as ->.
  { unfold pair_line. cbn [fst snd]. change (B ": " ++ v) with (":"%char :: SP :: v). apply cut_at. apply key_not; [exact Fk|vm_compute; tauto]. }
  assert (no_pair (pair_line (k, v)) k (SP :: v) = false) as ->.
  { assert (~ In "["%char (pair_line (k, v))) as Nb.
    { unfold pair_line. cbn [fst snd]. intro I. apply in_app_or in I. destruct I as [I|I]; [exact (key_not k "["%char Fk ltac:(vm_compute; tauto) I)|].
      cbn [B String.list_ascii_of_string app] in I. destruct I as [I|[I|I]]; [discriminate I|discriminate I|exact (Bv I)]. }
    unfold no_pair. rewrite (holds_false (B "[!") (pair_line (k, v))); [|discriminate|intros (a & b & E); apply Nb; rewrite E; apply in_or_app; right; left; reflexivity].
    rewrite (byte_false "[" _ Nb). cbn [andb orb].
    assert ((7 <=? length k) && (starts (B "http://") (pair_line (k, v)) || ((8 <=? length k) && starts (B "https://") (pair_line (k, v))) || starts (B "mailto:") (pair_line (k, v)) || holds_ (B "://") (pair_line (k, v))) = false) as ->.
    { destruct (7 <=? length k) eqn:L; [|reflexivity]. apply Nat.leb_le in L. cbn [andb].
      assert (forall x, In ":"%char (firstn 7 x) -> length x >= 7 -> starts x (pair_line (k, v)) = false) as NS.
      { intros x I Lx. apply bool_false. intro Q. apply starts_spec in Q. destruct Q as [z E]. unfold pair_line in E. cbn [fst snd] in E.
        apply (key_not k ":"%char Fk ltac:(vm_compute; tauto)). apply (f_equal (firstn 7)) in E. rewrite !firstn_app in E.
        replace (7 - length k) with 0 in E by lia. replace (7 - length x) with 0 in E by lia. rewrite !firstn_O, !app_nil_r in E.
        rewrite <- E in I. rewrite <- (firstn_skipn 7 k). apply in_or_app. left. exact I. }
      rewrite (NS (B "http://")) by (vm_compute; tauto || lia). rewrite (NS (B "https://")) by (vm_compute; tauto || lia). rewrite (NS (B "mailto:")) by (vm_compute; tauto || lia).
      rewrite andb_false_r. cbn [orb]. apply holds_false; [discriminate|]. destruct Uv as [Uv|Uv]; [lia|]. intro W. apply Uv.
      unfold pair_line in W. cbn [fst snd] in W.
      apply (within_skip ":"%char (B "//") k) in W; [|apply key_not; [exact Fk|vm_compute; tauto]].
      destruct W as (u & w & E). destruct u as [|d u]; [discriminate E|]. injection E as _ E.
      apply (within_skip ":"%char (B "//") [SP] v); [vm_compute; intuition discriminate|]. exists u, w. exact E. }
    rewrite (byte_false "<" k) by (apply key_not; [exact Fk|vm_compute; tauto]). cbn [orb negb].
    change (at_ (SP :: v) 0) with SP. cbn [negb orb ceq]. rewrite ceq_refl. cbn [orb negb].
    rewrite (trimmed_solid k Sk).
    pose proof (trimmed_in [SP] v [] ltac:(repeat constructor) Sv ltac:(constructor)) as T. rewrite app_nil_r in T. change ([SP] ++ v) with (SP :: v) in T. rewrite T.
    rewrite Ek. destruct Sv as [(d & q & -> & _) _]. reflexivity. }
  rewrite (trimmed_solid k Sk). pose proof (trimmed_in [SP] v [] ltac:(repeat constructor) Sv ltac:(constructor)) as T. rewrite app_nil_r in T. change ([SP] ++ v) with (SP :: v) in T. rewrite T.
  rewrite El. reflexivity.
Qed.

Lemma mmd_pairs ps : Forall plain_pair ps -> forall found ls items, mmd_lines found (map pair_line ps ++ ls) items =
  mmd_lines (found || match ps with [] => false | _ => true end) ls (rev ps ++ items).
Proof.
  induction 1 as [|p ps P F IH]; intros found ls items; [rewrite orb_false_r; reflexivity|].
  cbn [map app]. rewrite (mmd_pair (pair_line p) p P) by (apply clip_short; destruct P as (_ & _ & _ & _ & _ & _ & L); exact L). rewrite IH. cbn [orb rev]. rewrite orb_true_r, <- app_assoc. reflexivity.
Qed.

(** ** The text that is left *)

Definition mmd_text (text : str) : Prop := exists c r, text = c :: r /\ starts (B "---") text = false /\ ceq c "%" = false.

Lemma mmd_extract lib text items lo : mmd_text text -> mmd_lines false (fst (lines_of text)) [] = (items, lo) -> items <> [] ->
  extract lib text = (items, match lo with Keep => text | Whole => [] | Rest ls' => skipn (length text - length (joined ls' (snd (lines_of text)))) text end).
Proof.
  intros (c & r & -> & Hs & Hp) E N. unfold extract. rewrite Hs. change (at_ (c :: r) 0) with c. rewrite Hp. unfold parse_mmd.
  destruct (lines_of (c :: r)) as [ls t]. cbn [fst snd] in *. rewrite E. destruct items as [|i items]; [destruct (N eq_refl)|].
  destruct lo; cbn [skipn]; try reflexivity. rewrite skipn_all. reflexivity.
Qed.

Lemma mmd_none lib text lo : mmd_text text -> mmd_lines false (fst (lines_of text)) [] = ([], lo) -> extract lib text = ([], text).
Proof.
  intros (c & r & -> & Hs & Hp) E. unfold extract. rewrite Hs. change (at_ (c :: r) 0) with c. rewrite Hp. unfold parse_mmd.
  destruct (lines_of (c :: r)) as [ls t]. cbn [fst snd] in *. rewrite E. destruct lo; reflexivity.
Qed.

Lemma pairs_text p ps s : plain_pair p -> mmd_text (rows (map pair_line (p :: ps)) ++ s).
Proof.
  destruct p as [k v]. intro P. destruct (pair_line_facts k v P) as (c & r & Ek & A & _). 
  exists c, ((r ++ B ": " ++ v ++ [NL]) ++ rows (map pair_line ps) ++ s).
  assert (rows (map pair_line ((k, v) :: ps)) ++ s = c :: (r ++ B ": " ++ v ++ [NL]) ++ rows (map pair_line ps) ++ s) as E.
  { unfold rows, row, pair_line. cbn [map concat fst snd]. rewrite Ek. rewrite <- !app_assoc. reflexivity. }
  split; [exact E|]. rewrite E. destruct (alpha_start c ((r ++ B ": " ++ v ++ [NL]) ++ rows (map pair_line ps) ++ s) A) as (_ & _ & _ & H1 & H2). split; assumption.
Qed.

Lemma pairs_oneline ps : Forall plain_pair ps -> Forall one_line (map pair_line ps).
Proof. induction 1 as [|[k v] ps P F IH]; constructor; [|exact IH]. destruct (pair_line_facts k v P) as (_ & _ & _ & _ & _ & O). exact O. Qed.

Lemma rev_ne {A} (p : A) ps : rev (p :: ps) <> [].
Proof. cbn [rev]. destruct (rev ps); discriminate. Qed.

Lemma mmd_block lib ps body : ps <> [] -> Forall plain_pair ps -> extract lib (rows (map pair_line ps) ++ NL :: body) = (rev ps, body).
Proof.
  intros N F. destruct ps as [|p ps]; [destruct (N eq_refl)|].
  assert (plain_pair p) as P by (inversion F; assumption).
  rewrite (mmd_extract lib _ (rev (p :: ps)) (Rest (fst (lines_of body)))).
  - rewrite lines_rows by (apply pairs_oneline; exact F). cbn [snd].
    change (NL :: body) with ([] ++ NL :: body). rewrite (lines_row [] body) by (intros []). cbn [snd]. rewrite joined_lines.
    f_equal. change ([] ++ NL :: body) with ([NL] ++ body). rewrite app_assoc. apply skip_len.
  - apply pairs_text. exact P.
  - rewrite lines_rows by (apply pairs_oneline; exact F). change (NL :: body) with ([] ++ NL :: body). rewrite (lines_row [] body) by (intros []). cbn [fst].
    rewrite mmd_pairs by exact F. cbn [orb mmd_lines]. rewrite app_nil_r. reflexivity.
  - apply rev_ne.
Qed.

Lemma stop_line l : one_line l -> ~ whites (clip l) -> ~ In ":"%char l -> forall ls items, mmd_lines true (l :: ls) items = (items, Rest (l :: ls)).
Proof.
  intros O W C ls items. cbn [mmd_lines]. destruct (trimmed (clip l)) as [|c t] eqn:T; [destruct (W (trimmed_nil _ T))|].
  destruct (passed (c :: t)); [reflexivity|]. destruct (holds_ (B "{i:") (c :: t)); [reflexivity|]. destruct (starts (B "{{TOC") (c :: t)); [reflexivity|].
  destruct (list_item (c :: t)); [reflexivity|].
  rewrite cut_none; [reflexivity|]. intro I. apply C.
  assert (In ":"%char (clip l)) as I'.
  { destruct (white_cases (clip l)) as [Q|(a & x & b & E & Wa & Sx & Wb)]; [destruct (W Q)|]. rewrite E in I |- *. rewrite trim_in in I by assumption.
    rewrite app_assoc. apply in_or_app. left. exact I. }
  unfold clip in I'. rewrite <- (firstn_skipn 1023 l). apply in_or_app. left. exact I'.
Qed.

Lemma mmd_stop lib ps l body : ps <> [] -> Forall plain_pair ps -> one_line l -> ~ whites (clip l) -> ~ In ":"%char l ->
  extract lib (rows (map pair_line ps) ++ l ++ NL :: body) = (rev ps, l ++ NL :: body).
Proof.
  intros N F O W C. destruct ps as [|p ps]; [destruct (N eq_refl)|].
  assert (plain_pair p) as P by (inversion F; assumption).
  rewrite (mmd_extract lib _ (rev (p :: ps)) (Rest (l :: fst (lines_of body)))).
  - rewrite lines_rows by (apply pairs_oneline; exact F). cbn [snd]. rewrite (lines_row l body) by exact O. cbn [snd].
    assert (joined (l :: fst (lines_of body)) (snd (lines_of body)) = l ++ NL :: body) as J.
    { pose proof (joined_lines body) as J. unfold joined in *. cbn [map concat]. rewrite <- !app_assoc. rewrite J. reflexivity. }
    rewrite J. f_equal. apply skip_len.
  - apply pairs_text. exact P.
  - rewrite lines_rows by (apply pairs_oneline; exact F). rewrite (lines_row l body) by exact O. cbn [fst].
    rewrite mmd_pairs by exact F. cbn [orb]. rewrite stop_line by assumption. rewrite app_nil_r. reflexivity.
  - apply rev_ne.
Qed.

Lemma mmd_heading lib h ps body : one_line h -> ps <> [] -> Forall plain_pair ps -> extract lib (row (heading h) ++ rows (map pair_line ps) ++ NL :: body) = (rev ps, body).
Proof.
  intros O N F.
  assert (one_line (heading h)) as Oh by (intros [Q|I]; [discriminate Q|exact (O I)]).
  unfold row. rewrite <- app_assoc. cbn [app].
  assert (mmd_lines false (fst (lines_of (heading h ++ NL :: rows (map pair_line ps) ++ NL :: body))) [] = (rev ps, Rest (fst (lines_of body)))) as E.
  { rewrite lines_row by exact Oh. cbn [fst]. rewrite lines_rows by (apply pairs_oneline; exact F). change (NL :: body) with ([] ++ NL :: body). rewrite (lines_row [] body) by (intros []). cbn [fst].
    cbn [mmd_lines].
    assert (exists t, trimmed (clip (heading h)) = "#"%char :: t) as [t ->].
    { unfold heading. change (clip ("#"%char :: h)) with ("#"%char :: firstn 1022 h). set (g := firstn 1022 h).
      destruct (white_cases ("#"%char :: g)) as [Q|(a & x & b & E & Wa & Sx & Wb)]; [inversion Q; discriminate|].
      rewrite E. rewrite trimmed_in by assumption. destruct a as [|d a]; [|injection E as <- _; inversion Wa; discriminate].
      destruct Sx as [(d & q & -> & _) _]. cbn [app] in E. injection E as <- _. exists q. reflexivity. }
    change (passed ("#"%char :: t)) with true. cbv iota. rewrite mmd_pairs by exact F. destruct ps as [|p ps]; [destruct (N eq_refl)|]. cbn [orb mmd_lines]. rewrite app_nil_r. reflexivity. }
  rewrite (mmd_extract lib _ _ _) with (2 := E).
  - rewrite lines_row by exact Oh. cbn [snd]. rewrite lines_rows by (apply pairs_oneline; exact F). cbn [snd].
    change (NL :: body) with ([] ++ NL :: body). rewrite (lines_row [] body) by (intros []). cbn [snd]. rewrite joined_lines. f_equal.
    change (heading h ++ NL :: rows (map pair_line ps) ++ [] ++ NL :: body) with (heading h ++ [NL] ++ rows (map pair_line ps) ++ [NL] ++ body).
    rewrite !app_assoc. apply skip_len.
  - exists "#"%char. eexists. split; [reflexivity|]. split; reflexivity.
  - destruct ps; [destruct (N eq_refl)|apply rev_ne].
Qed.

Lemma mmd_tail lib ps t : ps <> [] -> Forall plain_pair ps -> one_line t -> extract lib (rows (map pair_line ps) ++ t) = (rev ps, []).
Proof.
  intros N F O. destruct ps as [|p ps]; [destruct (N eq_refl)|].
  assert (plain_pair p) as P by (inversion F; assumption).
  rewrite (mmd_extract lib _ (rev (p :: ps)) Whole); [reflexivity|apply pairs_text; exact P| |apply rev_ne].
  rewrite lines_rows by (apply pairs_oneline; exact F). rewrite lines_tail by exact O. cbn [fst]. rewrite mmd_pairs by exact F. cbn [orb mmd_lines]. rewrite app_nil_r. reflexivity.
Qed.

(** ** What is taken away is made of lines *)

Lemma mmd_suffix ls : forall found items items' ls', mmd_lines found ls items = (items', Rest ls') -> exists used, ls = used ++ ls'.
Proof.
  induction ls as [|l ls IH]; intros found items items' ls' E; cbn [mmd_lines] in E; [destruct found; discriminate E|].
  assert (forall x y, (if found then (x, Rest (l :: ls)) else ([], Keep)) = (y : list (str * str), Rest ls') -> exists used, l :: ls = used ++ ls') as Stop.
  { intros x y Q. destruct found; [|discriminate Q]. injection Q as _ <-. exists []. reflexivity. }
  assert (forall i y, mmd_lines false ls i = (y, Rest ls') -> exists used, l :: ls = used ++ ls') as Next.
  { intros i y Q. destruct (IH _ _ _ _ Q) as [used ->]. exists (l :: used). reflexivity. }
  assert (forall i y, mmd_lines true ls i = (y, Rest ls') -> exists used, l :: ls = used ++ ls') as Next'.
  { intros i y Q. destruct (IH _ _ _ _ Q) as [used ->]. exists (l :: used). reflexivity. }
  assert (forall i y, (if found then (i, Rest (l :: ls)) else mmd_lines false ls i) = (y, Rest ls') -> exists used, l :: ls = used ++ ls') as Pass.
  { intros i y Q. destruct found; [injection Q as _ <-; exists []; reflexivity|exact (Next _ _ Q)]. }
  destruct (trimmed (clip l)) as [|c t].
  - destruct found; [injection E as _ <-; exists [l]; reflexivity|exact (Next _ _ E)].
  - destruct (passed (c :: t)); [exact (Pass _ _ E)|]. destruct (holds_ _ _); [exact (Stop _ _ E)|]. destruct (starts _ _); [exact (Pass _ _ E)|].
    destruct (list_item _); [exact (Stop _ _ E)|]. destruct (cut _ _) as [[k v]|]; [|exact (Stop _ _ E)].
    destruct (no_pair _ _ _); [exact (Stop _ _ E)|exact (Next' _ _ E)].
Qed.

Lemma yaml_suffix ls : forall items items' ls', yaml_lines ls items = (items', Rest ls') -> exists used, ls = used ++ ls'.
Proof.
  induction ls as [|l ls IH]; intros items items' ls' E; cbn [yaml_lines] in E; [discriminate E|].
  assert (forall i y, yaml_lines ls i = (y, Rest ls') -> exists used, l :: ls = used ++ ls') as Next.
  { intros i y Q. destruct (IH _ _ _ Q) as [used ->]. exists (l :: used). reflexivity. }
  destruct (seq_ _ _ || seq_ _ _); [injection E as _ <-; exists [l]; reflexivity|].
  destruct (cut _ _) as [[k v]|]; [|exact (Next _ _ E)]. destruct (trimmed k); exact (Next _ _ E).
Qed.

Lemma yaml_not_whole ls : forall items items', yaml_lines ls items <> (items', Whole).
Proof.
  induction ls as [|l ls IH]; intros items items' E; cbn [yaml_lines] in E; [discriminate E|].
  destruct (seq_ _ _ || seq_ _ _); [discriminate E|]. destruct (cut _ _) as [[k v]|]; [|exact (IH _ _ E)]. destruct (trimmed k); exact (IH _ _ E).
Qed.

Lemma pandoc_suffix keys : forall ls items items' ls', pandoc_lines keys ls items = (items', ls') -> exists used, ls = used ++ ls'.
Proof.
  induction keys as [|key keys IH]; intros ls items items' ls' E; cbn [pandoc_lines] in E; [injection E as _ <-; exists []; reflexivity|].
  destruct ls as [|l ls]; [injection E as _ <-; exists []; reflexivity|].
  destruct (ceq _ _); [|injection E as _ <-; exists []; reflexivity].
  destruct (trimmed (skipn 1 _)); destruct (IH _ _ _ _ E) as [used ->]; exists (l :: used); reflexivity.
Qed.

Lemma cut_shape c s k v : cut c s = Some (k, v) -> s = k ++ c :: v /\ ~ In c k.
Proof.
  unfold cut. destruct (strchr c s) as [i|] eqn:E; [|discriminate]. intro Q. apply strchr_some in E. destruct E as (a & b & -> & <- & N).
  assert (firstn (length a) (a ++ c :: b) = a) as E1 by (rewrite firstn_app, Nat.sub_diag, firstn_all, firstn_O; apply app_nil_r).
  assert (skipn (S (length a)) (a ++ c :: b) = b) as E2 by (clear; induction a; [reflexivity|exact IHa]).
  rewrite E1, E2 in Q. injection Q as <- <-. auto.
Qed.

Lemma rest_rows text used ls' : fst (lines_of text) = used ++ ls' ->
  text = rows used ++ joined ls' (snd (lines_of text)) /\ skipn (length text - length (joined ls' (snd (lines_of text)))) text = joined ls' (snd (lines_of text)).
Proof.
  intro E. pose proof (joined_lines text) as J. rewrite E in J. unfold joined at 1 in J. rewrite map_app, concat_app, <- app_assoc in J.
  change (rows used ++ joined ls' (snd (lines_of text)) = text) in J. generalize (joined ls' (snd (lines_of text))) J. clear J. intros r <-. split; [reflexivity|apply skip_len].
Qed.

Lemma with_no_lib text : with_lib no_lib text = ([], 0).
Proof. reflexivity. Qed.

Lemma simple_cases text items n : simple_yaml text 0 = (items, n) ->
  skipn n text = text \/ exists ls, text = rows ls ++ skipn n text.
Proof.
  unfold simple_yaml. destruct (cut NL (skipn 3 text)) as [[x r]|] eqn:C; [|intro Q; injection Q as _ <-; left; reflexivity].
  apply cut_shape in C. destruct C as [Et N].
  destruct (lines_of r) as [ls t] eqn:L. destruct (yaml_lines ls []) as [items' [|ls'|]] eqn:Y.
  - intro Q. injection Q as _ <-. left. reflexivity.
  - intro Q. injection Q as _ <-. right. destruct (yaml_suffix _ _ _ _ Y) as [used Eu].
    pose proof (rest_rows r used ls') as R. rewrite L in R. cbn [fst snd] in R. destruct (R Eu) as [Er _]. 
    assert (text = (firstn 3 text ++ x ++ [NL] ++ rows used) ++ joined ls' t) as E.
    { rewrite <- (firstn_skipn 3 text) at 1. rewrite Et, Er. rewrite <- !app_assoc. reflexivity. }
    assert (skipn (length text - length (joined ls' t)) text = joined ls' t) as K.
    { revert E. generalize (firstn 3 text ++ x ++ [NL] ++ rows used). intros p E. rewrite E at 2. rewrite E at 1. apply skip_len. }
    rewrite K. exists (fst (lines_of (firstn 3 text ++ x ++ [NL])) ++ used). rewrite E at 1.
    replace (rows (fst (lines_of (firstn 3 text ++ x ++ [NL])) ++ used)) with (concat (map row (fst (lines_of (firstn 3 text ++ x ++ [NL])))) ++ rows used) by (unfold rows; rewrite map_app, concat_app; reflexivity).
    replace (concat (map row (fst (lines_of (firstn 3 text ++ x ++ [NL]))))) with (firstn 3 text ++ x ++ [NL]); [rewrite <- !app_assoc; reflexivity|].
    pose proof (joined_lines (firstn 3 text ++ x ++ [NL])) as J.
    assert (snd (lines_of (firstn 3 text ++ x ++ [NL])) = []) as Z.
    { rewrite app_assoc. generalize (firstn 3 text ++ x). clear. intro p. induction p as [|c p IH]; [reflexivity|].
      cbn [app lines_of]. destruct (lines_of (p ++ [NL])) as [[|l ls] t] eqn:L; cbn [snd] in IH; subst t.
      - pose proof (joined_lines (p ++ [NL])) as J. rewrite L in J. destruct p; discriminate J.
      - destruct (ceq c NL); reflexivity. }
    rewrite Z in J. unfold joined in J. rewrite app_nil_r in J. symmetry. exact J.
  - destruct (yaml_not_whole _ _ _ Y).
Qed.

Lemma extract_lines text : snd (extract no_lib text) = [] \/ exists ls, text = rows ls ++ snd (extract no_lib text).
Proof.
  assert (exists ls : list str, text = rows ls ++ text) as Same by (exists []; reflexivity).
  unfold extract. destruct text as [|c text']; [left; reflexivity|]. set (text := c :: text') in *.
  destruct (starts (B "---") text).
  - unfold parse_yaml. rewrite with_no_lib. destruct (simple_yaml text 0) as [[|i items] n] eqn:E; [right; exact Same|]. cbn [snd].
    destruct (simple_cases _ _ _ E) as [K|K]; [rewrite K; right; exact Same|right; exact K].
  - destruct (ceq (at_ text 0) "%").
    + unfold parse_pandoc. destruct (lines_of text) as [ls t] eqn:L. destruct (pandoc_lines _ ls []) as [[|i items] ls'] eqn:P; [right; exact Same|]. cbn [snd].
      destruct (pandoc_suffix _ _ _ _ _ P) as [used Eu]. pose proof (rest_rows text used ls') as R. rewrite L in R. cbn [fst snd] in R. destruct (R Eu) as [E K]. rewrite K. right. exists used. exact E.
    + unfold parse_mmd. destruct (lines_of text) as [ls t] eqn:L. destruct (mmd_lines false ls []) as [[|i items] [|ls'|]] eqn:P; try (right; exact Same); cbn [snd].
      * destruct (mmd_suffix _ _ _ _ _ P) as [used Eu]. pose proof (rest_rows text used ls') as R. rewrite L in R. cbn [fst snd] in R. destruct (R Eu) as [E K]. rewrite K. right. exists used. exact E.
      * left. apply skipn_all.
Qed.

(** ** Every line taken says its item *)

Lemma pair_says x k v : trimmed x <> [] -> cut ":" (trim_in_place x) = Some (k, v) -> no_pair (trim_in_place x) k v = false -> says x (trimmed k, trimmed v).
Proof.
  intros N C P. destruct (white_cases x) as [W|(a & y & b & E & Wa & Sy & Wb)]; [destruct (N (trimmed_whites _ W))|].
  rewrite E in C, P |- *. rewrite trim_in in C, P by assumption. apply cut_shape in C. destruct C as [C Nk].
  unfold no_pair in P. apply orb_false_iff in P. destruct P as [_ P].
  destruct (white_cases k) as [W|(a1 & k' & b1 & Ek & Wa1 & Sk & Wb1)]; [rewrite (trimmed_whites k W) in P; discriminate P|].
  destruct (white_cases v) as [W|(a2 & v' & b2 & Ev & Wa2 & Sv & Wb2)]; [rewrite (trimmed_whites v W) in P; destruct (trimmed k); discriminate P|].
  subst k v. rewrite !trimmed_in by assumption. exists a1, b1, a2, (b2 ++ b). cbn [fst snd].
  split; [rewrite app_assoc, C, <- !app_assoc; cbn [app]; rewrite <- !app_assoc; reflexivity|].
  split; [exact Wa1|]. split; [exact Wb1|]. split; [exact Wa2|]. split; [apply Forall_app; split; assumption|]. split; [exact Sk|]. split; [exact Sv|].
  intro I. apply Nk. apply in_or_app. right. apply in_or_app. left. exact I.
Qed.

Lemma mmd_found ls : forall items items' lo, mmd_lines true ls items = (items', lo) ->
  exists used ps, Forall2 (fun l p => says (clip l) p) used ps /\ items' = rev ps ++ items /\
    match lo with Keep => False | Whole => ls = used | Rest ls' => ls = used ++ ls' \/ exists b, whites (clip b) /\ ls = used ++ b :: ls' end.
Proof.
  induction ls as [|l ls IH]; intros items items' lo E; cbn [mmd_lines] in E.
  - injection E as <- <-. exists [], []. split; [constructor|]. split; reflexivity.
  - assert ((items, Rest (l :: ls)) = (items', lo) -> exists used ps, Forall2 (fun l p => says (clip l) p) used ps /\ items' = rev ps ++ items /\
      match lo with Keep => False | Whole => l :: ls = used | Rest ls' => l :: ls = used ++ ls' \/ exists b, whites (clip b) /\ l :: ls = used ++ b :: ls' end) as Stop.
    { intro Q. injection Q as <- <-. exists [], []. split; [constructor|]. split; [reflexivity|]. left. reflexivity. }
    destruct (trimmed (clip l)) as [|c t] eqn:T.
    + injection E as <- <-. exists [], []. split; [constructor|]. split; [reflexivity|]. right. exists l. split; [apply trimmed_nil; exact T|reflexivity].
    + destruct (passed (c :: t)); [exact (Stop E)|]. destruct (holds_ _ _); [exact (Stop E)|]. destruct (starts _ _); [exact (Stop E)|].
      destruct (list_item _); [exact (Stop E)|]. destruct (cut _ _) as [[k v]|] eqn:C; [|exact (Stop E)].
      destruct (no_pair _ _ _) eqn:P; [exact (Stop E)|].
      destruct (IH _ _ _ E) as (used & ps & F & Ei & El). exists (l :: used), ((trimmed k, trimmed v) :: ps). split.
      * constructor; [|exact F]. apply pair_says; [congruence|exact C|exact P].
      * split; [rewrite Ei; cbn [rev]; rewrite <- app_assoc; reflexivity|]. destruct lo as [|ls'|]; [exact El| |cbn [app]; rewrite El; reflexivity].
        destruct El as [-> | (b & W & ->)]; [left; reflexivity|right; exists b; split; [exact W|reflexivity]].
Qed.

Lemma plain_passed x : plain_start x -> trimmed x <> [] /\ passed (trimmed x) = false /\ starts (B "{{TOC") (trimmed x) = false.
Proof.
  intros (a & y & -> & Wa & (c & r & Ey & Nc) & F).
  destruct (white_cases y) as [W|(a' & z & b & E & Wa' & Sz & Wb)]; [subst y; inversion W; congruence|].
  assert (a' = []) as ->.
  { destruct a' as [|d a']; [reflexivity|]. rewrite Ey in E. injection E as <- _. inversion Wa'. congruence. }
  cbn [app] in E. rewrite E. rewrite trimmed_in by assumption.
  assert (forall m, In m [B "*["; B "[>"; B "<!--"; B "#"; B "{:"; B "{{TOC"] -> starts m z = false) as St.
  { intros m I. destruct (starts m z) eqn:Q; [|reflexivity]. apply starts_spec in Q. destruct Q as [q ->]. rewrite Forall_forall in F. destruct (F m I (q ++ b)). rewrite E. symmetry. apply app_assoc. }
  split; [destruct Sz as [(d & q & -> & _) _]; discriminate|]. split; [|apply St; cbn; tauto].
  unfold passed. rewrite (St (B "*[")), (St (B "[>")), (St (B "<!--")), (St (B "#")), (St (B "{:")) by (cbn; tauto). rewrite !orb_false_r. cbn [orb].
  destruct (starts (B "{::") z) eqn:Q; [|reflexivity]. apply starts_spec in Q. destruct Q as [q Eq].
  specialize (St (B "{:")). rewrite Eq in St. discriminate St. cbn; tauto.
Qed.

Lemma plain_nonwhite x : plain_start x -> ~ whites x.
Proof. intros P W. destruct (plain_passed x P) as [N _]. exact (N (trimmed_whites x W)). Qed.

Lemma mmd_first l ls items lo : plain_start (clip l) -> mmd_lines false (l :: ls) [] = (items, lo) -> items <> [] -> mmd_lines true (l :: ls) [] = (items, lo).
Proof.
  intros P E N. destruct (plain_passed _ P) as (N1 & P1 & P2). cbn [mmd_lines] in E |- *.
  destruct (trimmed (clip l)) as [|c t]; [destruct (N1 eq_refl)|]. rewrite P1, P2 in E |- *.
  destruct (holds_ _ _); [injection E as <- _; destruct (N eq_refl)|]. destruct (list_item _); [injection E as <- _; destruct (N eq_refl)|].
  destruct (cut _ _) as [[k v]|]; [|injection E as <- _; destruct (N eq_refl)]. destruct (no_pair _ _ _); [injection E as <- _; destruct (N eq_refl)|]. exact E.
Qed.

(** ** URLs and long lines *)

Lemma url_line lib k v rest : plain_key k -> 7 <= length k -> solid v -> one_line v -> within (B "://") v -> length (pair_line (k, v)) <= 1023 ->
  extract lib (row (pair_line (k, v)) ++ rest) = ([], row (pair_line (k, v)) ++ rest).
Proof.
  intros (Sk & Fk & c & r & Ek & A) L Sv Ov U Ln.
  assert (solid (pair_line (k, v))) as Sp by (apply solid_app; assumption).
  assert (one_line (pair_line (k, v))) as O.
  { unfold one_line, pair_line. cbn [fst snd]. intro I. apply in_app_or in I. destruct I as [I|I]; [exact (key_not k NL Fk ltac:(cbn; tauto) I)|].
    apply in_app_or in I. destruct I as [I|I]; [cbn in I; destruct I as [I|[I|[]]]; discriminate I|exact (Ov I)]. }
  apply (mmd_none lib _ Keep).
  - exists c, ((r ++ B ": " ++ v ++ [NL]) ++ rest). unfold row, pair_line. cbn [fst snd]. rewrite Ek. 
    assert (((c :: r) ++ B ": " ++ v) ++ [NL] = c :: r ++ B ": " ++ v ++ [NL]) as -> by (rewrite <- !app_assoc; reflexivity).
    split; [reflexivity|]. cbn [app]. destruct (alpha_start c ((r ++ B ": " ++ v ++ [NL]) ++ rest) A) as (_ & _ & _ & H1 & H2). split; [exact H1|exact H2].
  - unfold row. rewrite <- app_assoc. cbn [app]. rewrite lines_row by exact O. cbn [fst mmd_lines].
    rewrite clip_short by exact Ln. rewrite trimmed_solid by exact Sp. rewrite trim_in_solid by exact Sp.
    assert (pair_line (k, v) = c :: r ++ B ": " ++ v) as E by (unfold pair_line; cbn [fst snd]; rewrite Ek; reflexivity).
    destruct (alpha_start c (r ++ B ": " ++ v) A) as (H0 & H1 & H2 & _ & _).
    rewrite E. cbv iota. rewrite H0, H1, H2. rewrite <- E.
    destruct (holds_ (B "{i:") _); [reflexivity|].
    assert (cut ":" (pair_line (k, v)) = Some (k, SP :: v)) as ->.
    { unfold pair_line. cbn [fst snd]. apply cut_at. exact (key_not k ":" Fk ltac:(cbn; tauto)). }
    unfold no_pair. rewrite (proj2 (Nat.leb_le 7 (length k)) L).
    rewrite (holds_true (B "://") (pair_line (k, v))).
    + rewrite !orb_true_r. cbn [andb]. rewrite ?orb_true_r. cbn [orb]. reflexivity.
    + destruct U as (a & b & Ev). exists (k ++ B ": " ++ a), b. unfold pair_line. cbn [fst snd]. rewrite Ev, <- !app_assoc. reflexivity.
Qed.

Lemma within_firstn x n v : within x (firstn n v) -> within x v.
Proof. intros (a & b & E). exists a, (b ++ skipn n v). rewrite <- (firstn_skipn n v) at 1. rewrite E, <- !app_assoc. reflexivity. Qed.

Lemma solid_nonwhite v : v <> [] -> Forall (fun c => isspace c = false) v -> solid v.
Proof.
  intros N F. split.
  - destruct v as [|c r]; [destruct (N eq_refl)|]. inversion F. exists c, r. auto.
  - destruct (exists_last N) as (r & c & ->). apply Forall_app in F. destruct F as [_ F]. inversion F. exists c, r. auto.
Qed.

Lemma firstn_forall {A} (P : A -> Prop) n v : Forall P v -> Forall P (firstn n v).
Proof. intro F. rewrite <- (firstn_skipn n v) in F. apply Forall_app in F. apply F. Qed.

Lemma long_pair lib k v body : plain_key k -> length k <= 1000 -> Forall (fun c => isspace c = false) v -> ~ In "["%char v -> ~ within (B "{i:") v ->
  (length k < 7 \/ ~ within (B "://") v) -> 1023 < length (pair_line (k, v)) ->
  extract lib (row (pair_line (k, v)) ++ NL :: body) = ([(k, firstn (1021 - length k) v)], body).
Proof.
  intros Pk Lk Fv Bv Iv Uv Ln. pose (v' := firstn (1021 - length k) v).
  assert (length (pair_line (k, v)) = length k + 2 + length v) as Lp by (unfold pair_line; cbn [fst snd]; rewrite !app_length; cbn [length B String.list_ascii_of_string]; lia).
  assert (length v' = 1021 - length k) as Lv' by (unfold v'; rewrite firstn_length; lia).
  assert (solid v') as Sv'.
  { apply solid_nonwhite; [intro Q; rewrite Q in Lv'; cbn [length] in Lv'; lia|apply firstn_forall; exact Fv]. }
  assert (length (pair_line (k, v')) <= 1023) as Lc by (unfold pair_line; cbn [fst snd]; rewrite !app_length; cbn [length B String.list_ascii_of_string]; lia).
  assert (clip (pair_line (k, v)) = pair_line (k, v')) as Ec.
  { unfold clip, pair_line. cbn [fst snd]. rewrite !firstn_app. rewrite firstn_all2 by lia. f_equal. rewrite firstn_all2 by (cbn [length B String.list_ascii_of_string]; lia). f_equal.
    unfold v'. f_equal. cbn [length B String.list_ascii_of_string]. lia. }
  assert (Forall (fun c => c <> NL) v) as On by (eapply Forall_impl; [|exact Fv]; intros c H Q; subst c; discriminate H).
  assert (plain_pair (k, v')) as P.
  { split; [exact Pk|]. split; [exact Sv'|]. cbn [fst snd]. split.
    - intro I. pose proof (firstn_forall _ (1021 - length k) v On) as F. rewrite Forall_forall in F. exact (F NL I eq_refl).
    - split; [|split; [|split; [|exact Lc]]].
      + intro I. apply Bv. rewrite <- (firstn_skipn (1021 - length k) v). apply in_or_app. left. exact I.
      + intro W. exact (Iv (within_firstn _ _ _ W)).
      + destruct Uv as [U|U]; [left; exact U|right; intro W; exact (U (within_firstn _ _ _ W))]. }
  assert (one_line (pair_line (k, v))) as O.
  { destruct Pk as (_ & Fk & _). unfold one_line, pair_line. cbn [fst snd]. intro I. apply in_app_or in I. destruct I as [I|I]; [exact (key_not k NL Fk ltac:(cbn; tauto) I)|].
    apply in_app_or in I. destruct I as [I|I]; [cbn in I; destruct I as [I|[I|[]]]; discriminate I|]. rewrite Forall_forall in On. exact (On NL I eq_refl). }
  unfold row. rewrite <- app_assoc. cbn [app].
  assert (mmd_lines false (fst (lines_of (pair_line (k, v) ++ NL :: NL :: body))) [] = ([(k, v')], Rest (fst (lines_of body)))) as E.
  { rewrite lines_row by exact O. change (NL :: body) with ([] ++ NL :: body). rewrite (lines_row [] body) by (intros []). cbn [fst].
    rewrite (mmd_pair _ (k, v')) by assumption. reflexivity. }
  rewrite (mmd_extract lib _ _ _) with (2 := E).
  - rewrite lines_row by exact O. change (NL :: body) with ([] ++ NL :: body). rewrite (lines_row [] body) by (intros []). cbn [fst snd]. rewrite joined_lines.
    f_equal. change (NL :: [] ++ NL :: body) with ([NL; NL] ++ body). rewrite app_assoc. apply skip_len.
  - destruct (Pk) as (_ & _ & c & r & Ek & A). exists c, (r ++ B ": " ++ v ++ NL :: NL :: body).
    assert (pair_line (k, v) ++ NL :: NL :: body = c :: r ++ B ": " ++ v ++ NL :: NL :: body) as -> by (unfold pair_line; cbn [fst snd]; rewrite Ek, <- !app_assoc; reflexivity).
    split; [reflexivity|]. destruct (alpha_start c (r ++ B ": " ++ v ++ NL :: NL :: body) A) as (_ & _ & _ & H1 & H2). split; assumption.
  - discriminate.
Qed.

(** ** YAML *)

Lemma at_last (q : str) d : at_ (q ++ [d]) (length (q ++ [d]) - 1) = d.
Proof. rewrite app_length. cbn [length]. replace (length q + 1 - 1) with (length q) by lia. unfold at_. rewrite app_nth2, Nat.sub_diag by lia. reflexivity. Qed.

Lemma unquote_value w v : yaml_value w v -> unquote w = v.
Proof.
  intros [|v' Sv N|q v' Q D].
  - reflexivity.
  - unfold unquote. destruct (2 <=? length v') eqn:L; [|reflexivity]. cbn [andb]. apply Nat.leb_le in L.
    match goal with |- (if ?b then _ else _) = _ => destruct b eqn:H end; [|reflexivity]. destruct N.
    destruct v' as [|c r]; [cbn in L; lia|]. destruct r as [|e r]; [cbn in L; lia|].
    destruct (@exists_last _ (e :: r)) as (m & d & E); [discriminate|]. rewrite E in H. change (c :: m ++ [d]) with ((c :: m) ++ [d]) in H. rewrite at_last in H. change (at_ ((c :: m) ++ [d]) 0) with c in H.
    apply orb_prop in H. destruct H as [H|H]; apply andb_prop in H; destruct H as [H1 H2]; apply ceq_eq in H1, H2; subst c d.
    + exists DQ, m. split; [left; reflexivity|]. rewrite E. reflexivity.
    + exists SQ, m. split; [right; reflexivity|]. rewrite E. reflexivity.
  - unfold unquote. change (q :: v' ++ [q]) with ((q :: v') ++ [q]). rewrite at_last. change (at_ ((q :: v') ++ [q]) 0) with q.
    assert (length ((q :: v') ++ [q]) = length v' + 2) as L by (rewrite app_length; cbn [length]; lia). rewrite L.
    rewrite (proj2 (Nat.leb_le 2 (length v' + 2))) by lia.
    assert ((ceq q DQ && ceq q DQ) || (ceq q SQ && ceq q SQ) = true) as -> by (destruct Q; subst q; reflexivity). cbn [andb].
    replace (length v' + 2 - 2) with (length v') by lia. cbn [app skipn]. rewrite firstn_app, Nat.sub_diag, firstn_all, firstn_O, app_nil_r.
    destruct D as [-> | D]; [reflexivity|apply trim_in_solid; exact D].
Qed.

Lemma value_shape w v : yaml_value w v -> w = [] \/ solid w.
Proof.
  intros [|v' Sv N|q v' Q D]; [left; reflexivity|right; exact Sv|right].
  assert (isspace q = false) as Nq by (destruct Q; subst q; reflexivity). split; [exists q, (v' ++ [q]); auto|exists q, (q :: v'); auto].
Qed.

Lemma yaml_pair_step l p : yaml_pair l p -> forall ls items, yaml_lines (l :: ls) items = yaml_lines ls (p :: items).
Proof.
  destruct p as [k v]. intros (w & El & (Sk & Fk & c & r & Ek & A) & Ow & V & Ln) ls items. cbn [fst snd] in *.
  cbn [yaml_lines]. rewrite clip_short by exact Ln.
  assert (solid (B ":")) as Sc by (split; [exists ":"%char, []; auto|exists ":"%char, []; auto]).
  assert (exists x, trim_in_place l = k ++ ":"%char :: x /\ trimmed l = k ++ ":"%char :: x /\ trimmed x = w) as (x & E1 & E2 & E3).
  { destruct (value_shape w v V) as [-> | Sw].
    - exists []. assert (l = [] ++ (k ++ [] ++ B ":") ++ [SP]) as -> by (rewrite El, app_nil_r; cbn [app]; rewrite <- app_assoc; reflexivity).
      assert (solid (k ++ [] ++ B ":")) as So by (apply solid_app; assumption).
      rewrite trim_in, trimmed_in by (try exact So; repeat constructor). split; [reflexivity|]. split; reflexivity.
    - exists (SP :: w). assert (solid l) as So by (rewrite El; apply solid_app; assumption). rewrite trim_in_solid, trimmed_solid by exact So. split; [exact El|]. split; [exact El|].
      pose proof (trimmed_in [SP] w [] ltac:(repeat constructor) Sw ltac:(constructor)) as T. rewrite app_nil_r in T. exact T. }
  rewrite E1, E2. destruct (alpha_byte c A) as (_ & _ & Od).
  assert (forall z d, In d odd_bytes -> seq_ (k ++ ":"%char :: x) (d :: z) = false) as Ns.
  { intros z d I. apply bool_false. intro Q. apply seq_eq in Q. rewrite Ek in Q. injection Q as Q _. exact (odd_not c d Od I Q). }
  pose proof (Ns (B "--") "-"%char ltac:(cbn; tauto)) as N1. change ("-"%char :: B "--") with (B "---") in N1. rewrite N1.
  pose proof (Ns (B "..") "."%char ltac:(cbn; tauto)) as N2. change ("."%char :: B "..") with (B "...") in N2. rewrite N2. cbn [orb].
  rewrite cut_at by (exact (key_not k ":" Fk ltac:(cbn; tauto))). rewrite (trimmed_solid k Sk). rewrite E3, (unquote_value w v V). destruct k; [discriminate Ek|]. reflexivity.
Qed.

Lemma yaml_pairs ls ps : Forall2 yaml_pair ls ps -> forall ls' items, yaml_lines (ls ++ ls') items = yaml_lines ls' (rev ps ++ items).
Proof.
  induction 1 as [|l p ls ps P F IH]; intros ls' items; [reflexivity|]. cbn [app]. rewrite (yaml_pair_step l p P). rewrite IH. cbn [rev]. rewrite <- app_assoc. reflexivity.
Qed.

Lemma yaml_oneline ls ps : Forall2 yaml_pair ls ps -> Forall one_line ls.
Proof.
  induction 1 as [|l p ls ps P F IH]; constructor; [|exact IH]. destruct P as (w & -> & (_ & Fk & _) & Ow & _).
  intro I. apply in_app_or in I. destruct I as [I|I]; [exact (key_not _ NL Fk ltac:(cbn; tauto) I)|].
  apply in_app_or in I. destruct I as [I|I]; [cbn in I; destruct I as [I|[I|[]]]; discriminate I|exact (Ow I)].
Qed.

Lemma yaml_open x : exists c r, row (B "---") ++ x = c :: r /\ starts (B "---") (row (B "---") ++ x) = true /\ cut NL (skipn 3 (row (B "---") ++ x)) = Some ([], x).
Proof.
  exists "-"%char, (B "--" ++ NL :: x). split; [reflexivity|]. split; [reflexivity|]. unfold row. rewrite <- app_assoc. cbn [B String.list_ascii_of_string app skipn]. apply (cut_at NL [] x). intros [].
Qed.

Lemma yaml_closed ls ps mark body : Forall2 yaml_pair ls ps -> ps <> [] -> mark = B "---" \/ mark = B "..." ->
  extract no_lib (row (B "---") ++ rows ls ++ row mark ++ body) = (rev ps, body).
Proof.
  intros F N M. unfold extract. destruct (yaml_open (rows ls ++ row mark ++ body)) as (c & r & E & St & C).
  rewrite E. rewrite <- E. rewrite St. unfold parse_yaml. rewrite with_no_lib. unfold simple_yaml. rewrite C.
  rewrite lines_rows by (eapply yaml_oneline; exact F).
  assert (one_line mark) as Om by (destruct M; subst mark; vm_compute; intuition discriminate).
  assert (lines_of (row mark ++ body) = (mark :: fst (lines_of body), snd (lines_of body))) as -> by (unfold row; rewrite <- app_assoc; apply lines_row; exact Om).
  cbn [fst snd]. rewrite (yaml_pairs ls ps F). rewrite app_nil_r.
  assert (yaml_lines (mark :: fst (lines_of body)) (rev ps) = (rev ps, Rest (fst (lines_of body)))) as -> by (destruct M; subst mark; reflexivity).
  rewrite joined_lines. destruct ps as [|p ps]; [destruct (N eq_refl)|]. destruct (rev (p :: ps)) as [|i is] eqn:Ri; [destruct (rev_ne _ _ Ri)|].
  f_equal. rewrite !app_assoc. apply skip_len.
Qed.

Lemma yaml_unclosed ls ps t : Forall2 yaml_pair ls ps -> ps <> [] -> one_line t -> extract no_lib (row (B "---") ++ rows ls ++ t) = (rev ps, row (B "---") ++ rows ls ++ t).
Proof.
  intros F N O. unfold extract. destruct (yaml_open (rows ls ++ t)) as (c & r & E & St & C).
  rewrite E. rewrite <- E. rewrite St. unfold parse_yaml. rewrite with_no_lib. unfold simple_yaml. rewrite C.
  rewrite lines_rows by (eapply yaml_oneline; exact F). rewrite lines_tail by exact O. cbn [fst snd]. rewrite (yaml_pairs ls ps F). rewrite app_nil_r. cbn [yaml_lines].
  destruct ps as [|p ps]; [destruct (N eq_refl)|]. destruct (rev (p :: ps)) as [|i is] eqn:Ri; [destruct (rev_ne _ _ Ri)|]. reflexivity.
Qed.

(** ** The library *)

Lemma yaml_start_open x : yaml_start (row (B "---") ++ x) = x.
Proof. reflexivity. Qed.

Lemma lib_closed lib block rest items : block <> [] -> ~ within (NL :: B "---") block -> lib block = Some items -> items <> [] ->
  extract lib (row (B "---") ++ block ++ NL :: B "---" ++ rest) = (items, rest).
Proof.
  intros N W L Ni. unfold extract. destruct (yaml_open (block ++ NL :: B "---" ++ rest)) as (c & r & E & St & _).
  rewrite E. rewrite <- E. rewrite St. unfold parse_yaml, with_lib. rewrite yaml_start_open.
  assert (end_marker (block ++ NL :: B "---" ++ rest) = Some (length block)) as ->.
  { unfold end_marker. pose proof (strstr_unbordered (NL :: B "---") block rest eq_refl ltac:(discriminate) W) as H. change (NL :: B "---" ++ rest) with ((NL :: B "---") ++ rest). rewrite H. reflexivity. }
  destruct block as [|b block]; [destruct (N eq_refl)|]. change (length (b :: block)) with (S (length block)). cbv iota. cbv beta.
  change (S (length block)) with (length (b :: block)).
  assert (firstn (length (b :: block)) ((b :: block) ++ NL :: B "---" ++ rest) = b :: block) as -> by (rewrite firstn_app, Nat.sub_diag, firstn_all, firstn_O; apply app_nil_r).
  rewrite L. destruct items as [|i items]; [destruct (Ni eq_refl)|]. f_equal.
  assert (row (B "---") ++ (b :: block) ++ NL :: B "---" ++ rest = (row (B "---") ++ (b :: block) ++ NL :: B "---") ++ rest) as -> by (rewrite <- !app_assoc; reflexivity).
  assert (forall (p q : str) n, n = length p -> skipn n (p ++ q) = q) as Sk by (intros p q n ->; rewrite skipn_app, skipn_all, Nat.sub_diag; reflexivity).
  apply Sk. rewrite !app_length. cbn [length B String.list_ascii_of_string row app]. lia.
Qed.

Lemma has_within x s : has x s <-> within x s.
Proof. split; intros (a & b & E); exists a, b; exact E. Qed.

(** ** Pandoc title blocks *)

Lemma title_step t v key : title_line t v -> forall keys ls items, pandoc_lines (key :: keys) (t :: ls) items =
  pandoc_lines keys ls (match v with Some x => (key, x) :: items | None => items end).
Proof.
  intros [|x Sx Ox Lx] keys ls items; cbn [pandoc_lines].
  - reflexivity.
  - assert (solid (B "% " ++ x)) as So.
    { change (B "% " ++ x) with (B "%" ++ [SP] ++ x). apply solid_app; [|exact Sx]. split; [exists "%"%char, []; auto|exists "%"%char, []; auto]. }
    rewrite clip_short by (rewrite app_length; cbn [length B String.list_ascii_of_string]; lia). rewrite trimmed_solid by exact So.
    change (at_ (B "% " ++ x) 0) with "%"%char. rewrite ceq_refl. change (skipn 1 (B "% " ++ x)) with (SP :: x).
    pose proof (trimmed_in [SP] x [] ltac:(repeat constructor) Sx ltac:(constructor)) as T. rewrite app_nil_r in T. change ([SP] ++ x) with (SP :: x) in T. rewrite T.
    destruct Sx as [(d & q & -> & _) _]. reflexivity.
Qed.

Lemma title_steps ts vs : Forall2 title_line ts vs -> forall keys ls items, length ts <= length keys ->
  pandoc_lines keys (ts ++ ls) items = pandoc_lines (skipn (length ts) keys) ls (rev (title_items keys vs) ++ items).
Proof.
  induction 1 as [|t v ts vs T F IH]; intros keys ls items L.
  - destruct keys; reflexivity.
  - destruct keys as [|key keys]; [cbn in L; lia|]. cbn [app length skipn]. rewrite (title_step t v key T). rewrite IH by (cbn [length] in L; lia).
    destruct v; cbn [title_items rev]; [rewrite <- app_assoc|]; reflexivity.
Qed.

Lemma title_end keys body : keys = [] \/ no_percent body -> forall items, pandoc_lines keys (fst (lines_of body)) items = (items, fst (lines_of body)).
Proof.
  intros H items. destruct keys as [|key keys]; [reflexivity|]. destruct H as [H|H]; [discriminate H|]. cbn [pandoc_lines].
  destruct (fst (lines_of body)) as [|l ls] eqn:E; [reflexivity|].
  assert (ceq (at_ (trimmed (clip l)) 0) "%" = false) as ->; [|reflexivity]. apply bool_false. intro Q. apply ceq_eq in Q. apply H.
  destruct (white_cases (clip l)) as [W|(a & x & b & Ex & Wa & Sx & Wb)]; [rewrite (trimmed_whites _ W) in Q; discriminate Q|].
  rewrite Ex, trimmed_in in Q by assumption. destruct Sx as [(c & q & -> & _) _]. change (at_ (c :: q) 0) with c in Q. subst c.
  exists a, (q ++ b ++ skipn 1023 l ++ NL :: joined ls (snd (lines_of body))). split; [exact Wa|].
  rewrite <- (joined_lines body) at 1. rewrite E. unfold joined. cbn [map concat]. rewrite <- (firstn_skipn 1023 l) at 1. change (firstn 1023 l) with (clip l). rewrite Ex.
  rewrite <- !app_assoc. cbn [app]. rewrite <- ?app_assoc. reflexivity.
Qed.

Lemma title_oneline ts vs : Forall2 title_line ts vs -> Forall one_line ts.
Proof.
  induction 1 as [|t v ts vs T F IH]; constructor; [|exact IH]. destruct T as [|x Sx Ox Lx]; [vm_compute; intuition discriminate|].
  intro I. apply in_app_or in I. destruct I as [I|I]; [cbn in I; destruct I as [I|[I|[]]]; discriminate I|exact (Ox I)].
Qed.

Lemma title_block lib ts vs body : Forall2 title_line ts vs -> length ts <= 3 -> length ts = 3 \/ no_percent body -> title_items [B "title"; B "author"; B "date"] vs <> [] ->
  extract lib (rows ts ++ body) = (rev (title_items [B "title"; B "author"; B "date"] vs), body).
Proof.
  intros F L H N. destruct F as [|t v ts vs T F]; [destruct (N eq_refl)|].
  assert (exists r, rows (t :: ts) ++ body = "%"%char :: r) as [r E].
  { unfold rows. cbn [map concat]. destruct T; eexists; reflexivity. }
  assert (Forall2 title_line (t :: ts) (v :: vs)) as F' by (constructor; assumption). 
  unfold extract. rewrite E. change (starts (B "---") ("%"%char :: r)) with false. change (ceq (at_ ("%"%char :: r) 0) "%") with true. cbv iota. rewrite <- E.
  unfold parse_pandoc. rewrite lines_rows by (eapply title_oneline; exact F').
  rewrite (title_steps _ _ F') by exact L. rewrite app_nil_r.
  rewrite title_end.
  - rewrite joined_lines. destruct (rev (title_items [B "title"; B "author"; B "date"] (v :: vs))) as [|i is] eqn:R.
    + destruct N. rewrite <- (rev_involutive (title_items _ _)). rewrite R. reflexivity.
    + f_equal. apply skip_len.
  - destruct H as [H|H]; [left|right; exact H]. rewrite H. reflexivity.
Qed.

(** ** The front matter that is written *)

Lemma front_fold m : forall b, y_bad b = false -> length (y_out b) + 4 < y_size b ->
  let b' := fold_left yaml_add m b in y_bad b' = false /\ length (y_out b') + 4 < y_size b' /\ y_out b' = y_out b ++ concat (map (fun p => yaml_line (fst p) (snd p)) m).
Proof.
  induction m as [|[k v] m IH]; intros b Hb Hs; cbn [fold_left].
  - split; [exact Hb|]. split; [exact Hs|]. rewrite app_nil_r. reflexivity.
  - destruct (IH (yaml_add b (k, v))) as (H1 & H2 & H3).
    + unfold yaml_add. cbn [y_bad]. rewrite Hb. cbn [orb]. apply Nat.leb_gt. unfold yaml_line.
      destruct (y_size b <=? _) eqn:Q; [|apply Nat.leb_gt in Q]; destruct (quoted v); rewrite ?app_length in *; cbn [length B String.list_ascii_of_string] in *; lia.
    + unfold yaml_add. cbn [y_out y_size]. unfold yaml_line.
      destruct (y_size b <=? _) eqn:Q; [|apply Nat.leb_gt in Q]; destruct (quoted v); rewrite ?app_length in *; cbn [length B String.list_ascii_of_string] in *; lia.
    + split; [exact H1|]. split; [exact H2|]. rewrite H3. unfold yaml_add. cbn [y_out map concat fst snd]. rewrite <- app_assoc. reflexivity.
Qed.

Lemma front_exact m : yaml_front m = Some (row (B "---") ++ concat (map (fun p => yaml_line (fst p) (snd p)) m) ++ row (B "---")).
Proof.
  unfold yaml_front. destruct (front_fold m {| y_out := B "---" ++ [NL]; y_size := 512; y_bad := false |}) as (H1 & H2 & H3); [reflexivity|cbn; lia|].
  cbv zeta in *. rewrite H1. cbn [orb]. rewrite (proj2 (Nat.leb_gt _ _) H2). rewrite H3. cbn [y_out]. rewrite <- app_assoc. reflexivity.
Qed.

Lemma has_byte_true c s : In c s -> has_byte c s = true.
Proof. intro I. unfold has_byte. destruct (strchr c s) eqn:E; [reflexivity|]. apply strchr_none in E. destruct (E I). Qed.

Lemma has_byte_in c s : has_byte c s = true -> In c s.
Proof. unfold has_byte. destruct (strchr c s) eqn:E; [|discriminate]. intros _. apply strchr_some in E. destruct E as (a & b & -> & _). apply in_or_app. right. left. reflexivity. Qed.

Lemma front_line p : front_item p -> exists l, yaml_line (fst p) (snd p) = row l /\ yaml_pair l p.
Proof.
  destruct p as [k v]. intros (Pk & Ov & Sv & L & Q). cbn [fst snd] in *. unfold yaml_line. destruct (quoted v) eqn:Qv.
  - exists (k ++ B ": " ++ DQ :: v ++ [DQ]). split; [unfold row; rewrite <- !app_assoc; cbn [app]; rewrite <- !app_assoc; reflexivity|].
    exists (DQ :: v ++ [DQ]). split; [reflexivity|]. split; [exact Pk|]. split.
    + intros [I|I]; [discriminate I|]. apply in_app_or in I. destruct I as [I|[I|[]]]; [exact (Ov I)|discriminate I].
    + split; [apply value_quoted; [left; reflexivity|exact Sv]|]. rewrite !app_length. cbn [length B String.list_ascii_of_string]. rewrite app_length. cbn [length]. lia.
  - exists (k ++ B ": " ++ v). split; [unfold row; rewrite <- !app_assoc; reflexivity|]. exists v. split; [reflexivity|]. split; [exact Pk|]. split; [exact Ov|].
    split; [|rewrite !app_length; cbn [length B String.list_ascii_of_string]; lia].
    unfold quoted in Qv. apply orb_false_iff in Qv. destruct Qv as [Qv Q4]. apply orb_false_iff in Qv. destruct Qv as [Qv Q3]. apply orb_false_iff in Qv. destruct Qv as [Q1 Q2].
    destruct Sv as [-> | Sv]; [apply value_none|]. apply value_plain; [exact Sv|]. cbn [snd]. intros (q & m & [-> | ->] & E).
    + assert (has_byte DQ v = true) as H by (apply has_byte_true; rewrite E; left; reflexivity). congruence.
    + destruct Q as [I|[I|[I|N]]]; [apply has_byte_true in I; congruence|apply has_byte_true in I; congruence|apply has_byte_true in I; congruence|]. apply N. exists m. exact E.
Qed.

Lemma front_lines m : Forall front_item m -> exists ls, concat (map (fun p => yaml_line (fst p) (snd p)) m) = rows ls /\ Forall2 yaml_pair ls m.
Proof.
  induction 1 as [|p m P F (ls & E & H)]; [exists []; split; [reflexivity|constructor]|]. destruct (front_line p P) as (l & El & Pl).
  exists (l :: ls). split; [|constructor; assumption]. cbn [map concat]. rewrite El, E. reflexivity.
Qed.

Lemma front_round m n text : m <> [] -> Forall front_item m -> exists t, enhanced m n text = Some t /\ extract no_lib t = (rev m, skipn n text).
Proof.
  intros N F. destruct (front_lines m F) as (ls & E & H). unfold enhanced. destruct m as [|p m]; [destruct (N eq_refl)|]. rewrite front_exact, E.
  eexists. split; [reflexivity|]. rewrite <- !app_assoc. apply yaml_closed; [exact H|exact N|left; reflexivity].
Qed.

Lemma front_quotes k v n text : plain_key k -> one_line v -> v = [] \/ solid v -> length k + length v <= 1019 -> ~ In ":"%char v -> ~ In DQ v -> ~ In BS v ->
  exists t, enhanced [(k, SQ :: v ++ [SQ])] n text = Some t /\ extract no_lib t = ([(k, v)], skipn n text).
Proof.
  intros Pk Ov Sv L N1 N2 N3. unfold enhanced. rewrite front_exact. eexists. split; [reflexivity|]. cbn [map concat fst snd]. rewrite app_nil_r.
  assert (forall c, c <> SQ -> ~ In c v -> has_byte c (SQ :: v ++ [SQ]) = false) as Nb.
  { intros c D I. apply byte_false. intros [Q|Q]; [congruence|]. apply in_app_or in Q. destruct Q as [Q|[Q|[]]]; [exact (I Q)|congruence]. }
  assert (quoted (SQ :: v ++ [SQ]) = false) as Q.
  { unfold quoted. rewrite !Nb by (assumption || discriminate). reflexivity. }
  unfold yaml_line. rewrite Q.
  assert (k ++ B ": " ++ (SQ :: v ++ [SQ]) ++ [NL] = rows [k ++ B ": " ++ SQ :: v ++ [SQ]]) as -> by (unfold rows, row; cbn [map concat]; rewrite app_nil_r, <- !app_assoc; reflexivity).
  rewrite <- !app_assoc. rewrite (yaml_closed [k ++ B ": " ++ SQ :: v ++ [SQ]] [(k, v)] (B "---")); [reflexivity| |discriminate|left; reflexivity].
  constructor; [|constructor]. exists (SQ :: v ++ [SQ]). cbn [fst snd]. split; [reflexivity|]. split; [exact Pk|]. split.
  - intros [I|I]; [discriminate I|]. apply in_app_or in I. destruct I as [I|[I|[]]]; [exact (Ov I)|discriminate I].
  - split; [apply value_quoted; [right; reflexivity|exact Sv]|]. rewrite !app_length. cbn [length B String.list_ascii_of_string]. rewrite app_length. cbn [length]. lia.
Qed.
