(** Lemmas for C240-C245. *)
From Verif Require Import Base BaseL S_Pass L_Pass M_Syntax S_Syntax.

(** ** Escaping *)

Lemma unescape_step c n s : length (escape1 c ++ s) <= S n -> unescape (S n) (escape1 c ++ s) = c :: unescape n s.
Proof.
  intro L. unfold escape1 in *.
  destruct (ceq c "&") eqn:E1; [apply ceq_eq in E1; subst c; reflexivity|].
  destruct (ceq c "<") eqn:E2; [apply ceq_eq in E2; subst c; reflexivity|].
  destruct (ceq c ">") eqn:E3; [apply ceq_eq in E3; subst c; reflexivity|].
  destruct (ceq c DQ) eqn:E4; [apply ceq_eq in E4; subst c; reflexivity|].
  cbn [app unescape]. rewrite E1. reflexivity.
Qed.

Lemma escape1_length c : 1 <= length (escape1 c).
Proof. unfold escape1. repeat destruct (ceq _ _); cbn; lia. Qed.

Lemma unescape_escape s : forall n, length (escape s) <= n -> unescape n (escape s) = s.
Proof.
  induction s as [|c s IH]; intros n L; [destruct n; reflexivity|]. unfold escape in *. cbn [flat_map] in *. rewrite app_length in L. pose proof (escape1_length c).
  destruct n as [|n]; [lia|]. rewrite unescape_step by (rewrite app_length; lia). rewrite IH by lia. reflexivity.
Qed.

Lemma escape_no_lt s : ~ In "<"%char (escape s).
Proof.
  induction s as [|c s IH]; [intros []|]. unfold escape in *. cbn [flat_map]. intro I. apply in_app_or in I. destruct I as [I|I]; [|exact (IH I)].
  pose proof (byte_forall (fun c => negb (existsb (fun d => ceq d "<"%char) (escape1 c))) eq_refl c) as H. cbv beta in H. apply negb_true_iff in H.
  assert (existsb (fun d => ceq d "<"%char) (escape1 c) = true) as Q; [|congruence]. apply existsb_exists. exists "<"%char. split; [exact I|reflexivity].
Qed.

(** ** Reading *)

Lemma slurp_all chunks : forall cap out, 8 * 1024 <= cap -> length out <= cap -> Forall (fun x => length x <= 4096) chunks -> slurp cap out chunks = Some (out ++ concat chunks).
Proof.
  induction chunks as [|x chunks IH]; intros cap out C L F; cbn [slurp concat].
  - assert (length out < grown cap (length out)) as G by (unfold grown; destruct (cap <? length out + 4096) eqn:Q; [|apply Nat.ltb_ge in Q]; lia).
    rewrite (proj2 (Nat.ltb_lt _ _) G), app_nil_r. reflexivity.
  - inversion F as [|? ? Lx F']; subst.
    assert (length out + 4096 <= grown cap (length out) /\ cap <= grown cap (length out)) as [G1 G2] by (unfold grown; destruct (cap <? length out + 4096) eqn:Q; [|apply Nat.ltb_ge in Q]; lia).
    rewrite (proj2 (Nat.leb_le _ _)) by lia. rewrite IH; [rewrite <- app_assoc; reflexivity|lia|rewrite app_length; lia|exact F'].
Qed.

(** ** Pipes *)

Lemma eager_inv K n s : moves K true (before n) s -> p_held s <= 1 /\ p_in s <= K /\ p_out s <= K /\ p_left s + p_in s + p_held s + p_out s + p_got s = n /\ (0 < p_left s -> p_got s = 0).
Proof.
  intro M. remember (before n) as b eqn:Eb. induction M as [s|s s' s'' M IH St]; subst; [cbn; lia|]. specialize (IH eq_refl).
  destruct St as [w i h o g H|w i h o g H|w i h o g H1 H2|i h o g]; cbn [p_left p_in p_held p_out p_got] in *; lia.
Qed.

Lemma lazy_inv K n s : moves K false (before n) s -> p_in s <= K /\ p_out s <= K /\ p_left s + p_in s + p_held s + p_out s + p_got s = n /\ (0 < p_left s \/ 0 < p_in s -> p_out s = 0 /\ p_got s = 0).
Proof.
  intro M. remember (before n) as b eqn:Eb. induction M as [s|s s' s'' M IH St]; subst; [cbn; lia|]. specialize (IH eq_refl).
  destruct St as [w i h o g H|w i h o g H|w i h o g H1 H2|i h o g]; cbn [p_left p_in p_held p_out p_got] in *; lia.
Qed.

(** ** Words *)

Lemma pieces_cons p s : exists x l, pieces p s = x :: l.
Proof. induction s as [|c s (x & l & E)]; cbn [pieces]; [eauto|]. destruct (p c); [eauto|]. rewrite E. eauto. Qed.

Lemma pieces_one p s : Forall (fun c => p c = false) s -> pieces p s = [s].
Proof. induction 1 as [|c s C F IH]; [reflexivity|]. cbn [pieces]. rewrite C, IH. reflexivity. Qed.

Lemma pieces_app p a c b : Forall (fun c => p c = false) a -> p c = true -> pieces p (a ++ c :: b) = a :: pieces p b.
Proof.
  intros F C. induction F as [|d a D F IH]; cbn [app pieces]; [rewrite C; reflexivity|]. rewrite D, IH. reflexivity.
Qed.

Lemma safe_not c : safe c -> ceq c SP = false /\ ceq c ";" = false.
Proof.
  intros [A|I].
  - pose proof (byte_forall (fun c => implb (isalnum c) (negb (ceq c SP) && negb (ceq c ";"))) eq_refl c) as H. cbv beta in H. rewrite A in H. cbn [implb] in H.
    apply andb_prop in H. destruct H as [H1 H2]. apply negb_true_iff in H1, H2. auto.
  - cbn in I. repeat destruct I as [<- | I]; try (split; reflexivity). destruct I.
Qed.

Definition safe_b (c : ascii) : bool := isalnum c || existsb (ceq c) (B "+-_./").
Lemma safe_check w : forallb safe_b w = true -> Forall safe w.
Proof.
  intro H. rewrite forallb_forall in H. rewrite Forall_forall. intros c I. specialize (H c I). unfold safe_b in H. apply orb_prop in H. destruct H as [H|H]; [left; exact H|right].
  apply existsb_exists in H. destruct H as (d & I' & E). apply ceq_eq in E. subst d. exact I'.
Qed.

Lemma safe_word w : Forall safe w -> Forall (fun c => ceq c SP = false) w.
Proof. apply Forall_impl. intros c S_. apply (safe_not c S_). Qed.

Lemma words_one w : w <> [] -> Forall safe w -> words w = [w].
Proof. intros N F. unfold words. rewrite pieces_one by (apply safe_word; exact F). cbn [filter]. destruct w; [destruct (N eq_refl)|]. reflexivity. Qed.

Lemma words_cons w b : w <> [] -> Forall safe w -> words (w ++ SP :: b) = w :: words b.
Proof. intros N F. unfold words. rewrite pieces_app; [|apply safe_word; exact F|reflexivity]. cbn [filter]. destruct w; [destruct (N eq_refl)|]. reflexivity. Qed.

Lemma commands_one s : ~ In ";"%char s -> commands s = [words s].
Proof. intro N. unfold commands. rewrite pieces_one; [reflexivity|]. rewrite Forall_forall. intros c I. apply ceq_neq. intros ->. exact (N I). Qed.

Lemma commands_two a b : ~ In ";"%char a -> ~ In ";"%char b -> commands (a ++ ";"%char :: b) = [words a; words b].
Proof.
  intros Na Nb. unfold commands. rewrite pieces_app; [|rewrite Forall_forall; intros c I; apply ceq_neq; intros ->; exact (Na I)|reflexivity].
  rewrite pieces_one by (rewrite Forall_forall; intros c I; apply ceq_neq; intros ->; exact (Nb I)). reflexivity.
Qed.

Lemma safe_semi w : Forall safe w -> ~ In ";"%char w.
Proof. intros F I. rewrite Forall_forall in F. specialize (F _ I). apply safe_not in F. destruct F as [_ F]. discriminate F. Qed.

(** ** Places in tags *)

(** A literal without [c] that begins before the first [c] ends before it. *)
Lemma lit_before (c : ascii) lit P t u v : ~ In c lit -> P ++ c :: t = u ++ lit ++ v -> length u < length P \/ lit = [] -> length u <= length P -> exists b, P = u ++ lit ++ b.
Proof.
  intros N E _ L. symmetry in E.
  destruct (app_split P (c :: t) u (lit ++ v)) as (e & Ep & Ee); [symmetry; exact E|exact L|].
  destruct (Nat.le_gt_cases (length lit) (length e)) as [Q|Q].
  - destruct (app_split e (c :: t) lit v) as (f & Ef & _); [symmetry; exact Ee|exact Q|]. exists f. rewrite Ep, Ef. reflexivity.
  - destruct (app_split lit v e (c :: t)) as (f & Ef & Ec); [exact Ee|lia|].
    destruct f as [|d f]; [rewrite Ef, app_nil_r in Q; lia|]. cbn [app] in Ec. injection Ec as <- _. destruct N. rewrite Ef. apply in_or_app. right. left. reflexivity.
Qed.

Definition clear_of (lit x : str) : Prop := forallb (fun k => negb (starts (firstn (length x - k) lit) (skipn k x))) (seq 0 (length x)) = true.

Lemma has_behind lit x a : lit <> [] -> length x < length lit -> clear_of lit x -> has lit (x ++ a) -> has lit a.
Proof.
  intros Z Lx C (u & v & E). destruct (Nat.le_gt_cases (length x) (length u)) as [Q|Q].
  - destruct (app_split u (lit ++ v) x a) as (e & Eu & Ea); [symmetry; exact E|exact Q|]. exists e, v. exact Ea.
  - exfalso. unfold clear_of in C. rewrite forallb_forall in C. specialize (C (length u)). 
    rewrite in_seq in C. specialize (C ltac:(lia)). apply negb_true_iff in C.
    destruct (app_split x a u (lit ++ v)) as (e & Ex & Ee); [exact E|lia|].
    assert (skipn (length u) x = e) as Sx by (rewrite Ex, skipn_app, skipn_all, Nat.sub_diag; reflexivity).
    rewrite Sx in C. assert (length x - length u = length e) as Le by (rewrite Ex, app_length; lia). rewrite Le in C.
    assert (firstn (length e) lit = e) as Fe.
    { assert (length e <= length lit) as Q2 by lia. 
      apply (f_equal (firstn (length e))) in Ee. rewrite firstn_app in Ee. replace (length e - length lit) with 0 in Ee by lia. rewrite firstn_O, app_nil_r in Ee.
      rewrite firstn_app, Nat.sub_diag, firstn_all, firstn_O, app_nil_r in Ee. exact Ee. }
    rewrite Fe in C. assert (starts e e = true) as Q3 by (apply starts_spec; exists []; symmetry; apply app_nil_r). congruence.
Qed.

Lemma skip_front (a b : str) n : n = length a -> skipn n (a ++ b) = b.
Proof. intros ->. rewrite skipn_app, skipn_all, Nat.sub_diag. reflexivity. Qed.
Lemma take_front (a b : str) n : n = length a -> firstn n (a ++ b) = a.
Proof. intros ->. rewrite firstn_app, Nat.sub_diag, firstn_all, firstn_O. apply app_nil_r. Qed.

Lemma tag_close tag x r : ~ In ">"%char tag -> ~ In ">"%char x -> strchr ">" (tag ++ x ++ ">"%char :: r) = Some (length (tag ++ x)).
Proof.
  intros N1 N2. apply strchr_some. exists (tag ++ x), r. split; [rewrite <- app_assoc; reflexivity|]. split; [reflexivity|].
  intro I. apply in_app_or in I. tauto.
Qed.

Definition q_lang : str := B "lang=" ++ [DQ].
Definition q_class : str := B "class=" ++ [DQ].

Lemma attr_none x r : ~ has q_lang x -> lang_attr (B "<pre" ++ x ++ ">"%char :: r) (4 + length x) = [].
Proof.
  intro N. unfold lang_attr. fold q_lang. destruct (strstr q_lang _) as [k|] eqn:E; [|reflexivity]. destruct (k <? 4 + length x) eqn:K; [|reflexivity]. exfalso.
  apply Nat.ltb_lt in K. apply strstr_some in E. destruct E as (u & v & E & Lu & _).
  rewrite app_assoc in E. destruct (lit_before ">"%char q_lang (B "<pre" ++ x) r u v) as [b Eb].
  - vm_compute. intuition discriminate.
  - exact E.
  - left. rewrite app_length. cbn [length B String.list_ascii_of_string]. lia.
  - rewrite app_length. cbn [length B String.list_ascii_of_string]. lia.
  - apply N. apply (has_behind q_lang (B "<pre") x); [discriminate|cbn; lia|vm_compute; reflexivity|]. exists u, b. exact Eb.
Qed.

Lemma attr_found a l b r : ~ has q_lang a -> ~ In DQ l -> length l < 64 ->
  lang_attr (B "<pre" ++ (a ++ B "lang=" ++ [DQ] ++ l ++ [DQ] ++ b) ++ ">"%char :: r) (4 + length (a ++ B "lang=" ++ [DQ] ++ l ++ [DQ] ++ b)) = l.
Proof.
  intros N D L. unfold lang_attr. fold q_lang.
  assert (B "<pre" ++ (a ++ B "lang=" ++ [DQ] ++ l ++ [DQ] ++ b) ++ ">"%char :: r = (B "<pre" ++ a) ++ q_lang ++ (l ++ DQ :: b ++ ">"%char :: r)) as E by (unfold q_lang; rewrite <- !app_assoc; reflexivity).
  rewrite E.
  rewrite (strstr_unbordered q_lang (B "<pre" ++ a)); [|reflexivity|discriminate|intro H; apply N; apply (has_behind q_lang (B "<pre") a); [discriminate|cbn; lia|vm_compute; reflexivity|exact H]].
  assert (length (B "<pre" ++ a) = 4 + length a) as La by (rewrite app_length; reflexivity). rewrite La.
  assert (length (a ++ B "lang=" ++ [DQ] ++ l ++ [DQ] ++ b) = length a + 6 + length l + 1 + length b) as Lx by (rewrite !app_length; cbn [length B String.list_ascii_of_string]; lia). rewrite Lx.
  rewrite (proj2 (Nat.ltb_lt _ _)) by lia.
  assert (skipn (4 + length a + 6) ((B "<pre" ++ a) ++ q_lang ++ l ++ DQ :: b ++ ">"%char :: r) = l ++ DQ :: b ++ ">"%char :: r) as ->.
  { rewrite app_assoc. apply skip_front. rewrite app_length, La. reflexivity. }
  rewrite (proj2 (strchr_some DQ _ (length l))) by (exists l, (b ++ ">"%char :: r); auto).
  rewrite (proj2 (Nat.ltb_lt _ _)) by lia. rewrite (proj2 (Nat.ltb_lt _ _)) by lia. cbn [andb]. apply take_front. reflexivity.
Qed.

Lemma class_none y r : ~ has q_class y -> lang_class (B "<code" ++ y ++ ">"%char :: r) (5 + length y) = [].
Proof.
  intro N. unfold lang_class. fold q_class. destruct (strstr q_class _) as [k|] eqn:E; [|reflexivity]. destruct (k <? 5 + length y) eqn:K; [|reflexivity]. exfalso.
  apply Nat.ltb_lt in K. apply strstr_some in E. destruct E as (u & v & E & Lu & _).
  rewrite app_assoc in E. destruct (lit_before ">"%char q_class (B "<code" ++ y) r u v) as [b Eb].
  - vm_compute. intuition discriminate.
  - exact E.
  - left. rewrite app_length. cbn [length B String.list_ascii_of_string]. lia.
  - rewrite app_length. cbn [length B String.list_ascii_of_string]. lia.
  - apply N. apply (has_behind q_class (B "<code") y); [discriminate|cbn; lia|vm_compute; reflexivity|]. exists u, b. exact Eb.
Qed.

Lemma span_word (p : ascii -> bool) w r : Forall (fun c => p c = true) w -> (r = [] \/ exists c r', r = c :: r' /\ p c = false) -> span p (w ++ r) = (w, r).
Proof.
  intros F H. induction F as [|c w C F IH]; cbn [app].
  - destruct H as [-> | (c & r' & -> & C)]; [reflexivity|]. cbn [span]. rewrite C. reflexivity.
  - cbn [span]. rewrite C, IH. reflexivity.
Qed.

Lemma class_found a m l e r : ~ has q_class a -> ~ has (B "language-") m -> Forall (fun c => c <> DQ /\ c <> SP) l ->
  (e = [] \/ exists c r', e = c :: r' /\ (c = DQ \/ c = SP)) -> length l < 64 ->
  lang_class (B "<code" ++ (a ++ B "class=" ++ [DQ] ++ m ++ B "language-" ++ l ++ e) ++ ">"%char :: r) (5 + length (a ++ B "class=" ++ [DQ] ++ m ++ B "language-" ++ l ++ e)) = l.
Proof.
  intros N M F H L. unfold lang_class. fold q_class.
  assert (B "<code" ++ (a ++ B "class=" ++ [DQ] ++ m ++ B "language-" ++ l ++ e) ++ ">"%char :: r = (B "<code" ++ a) ++ q_class ++ (m ++ B "language-" ++ l ++ e ++ ">"%char :: r)) as E by (unfold q_class; rewrite <- !app_assoc; reflexivity).
  rewrite E.
  rewrite (strstr_unbordered q_class (B "<code" ++ a)); [|reflexivity|discriminate|intro Q; apply N; apply (has_behind q_class (B "<code") a); [discriminate|cbn; lia|vm_compute; reflexivity|exact Q]].
  assert (length (B "<code" ++ a) = 5 + length a) as La by (rewrite app_length; reflexivity). rewrite La.
  assert (length (a ++ B "class=" ++ [DQ] ++ m ++ B "language-" ++ l ++ e) = length a + 7 + length m + 9 + length l + length e) as Lx by (rewrite !app_length; cbn [length B String.list_ascii_of_string]; lia). rewrite Lx.
  rewrite (proj2 (Nat.ltb_lt _ _)) by lia.
  assert (skipn (5 + length a + 7) ((B "<code" ++ a) ++ q_class ++ m ++ B "language-" ++ l ++ e ++ ">"%char :: r) = m ++ B "language-" ++ l ++ e ++ ">"%char :: r) as ->.
  { rewrite app_assoc. apply skip_front. rewrite app_length, La. reflexivity. }
  rewrite (strstr_unbordered (B "language-") m) by (reflexivity || discriminate || exact M).
  rewrite (proj2 (Nat.ltb_lt _ _)) by lia.
  assert (skipn (5 + length a + 7 + length m + 9) ((B "<code" ++ a) ++ q_class ++ m ++ B "language-" ++ l ++ e ++ ">"%char :: r) = l ++ e ++ ">"%char :: r) as ->.
  { assert ((B "<code" ++ a) ++ q_class ++ m ++ B "language-" ++ l ++ e ++ ">"%char :: r = ((B "<code" ++ a) ++ q_class ++ m ++ B "language-") ++ l ++ e ++ ">"%char :: r) as -> by (rewrite <- !app_assoc; reflexivity).
    apply skip_front. rewrite !app_length. cbn [length B String.list_ascii_of_string q_class app]. lia. }
  replace (5 + (length a + 7 + length m + 9 + length l + length e) - (5 + length a + 7 + length m + 9)) with (length (l ++ e)) by (rewrite app_length; lia).
  rewrite app_assoc, take_front by reflexivity.
  rewrite span_word.
  - cbn [fst]. rewrite (proj2 (Nat.ltb_lt _ _) L). reflexivity.
  - eapply Forall_impl; [|exact F]. intros c [C1 C2]. cbv beta. rewrite (proj2 (ceq_neq _ _) C1), (proj2 (ceq_neq _ _) C2). reflexivity.
  - destruct H as [-> | (c & r' & -> & C)]; [left; reflexivity|right]. exists c, r'. split; [reflexivity|]. destruct C; subst c; reflexivity.
Qed.

Lemma lang_read x y lang r r' : Lang x y lang -> language (B "<pre" ++ x ++ ">"%char :: r) (4 + length x) (B "<code" ++ y ++ ">"%char :: r') (5 + length y) = lang.
Proof.
  intros [a l b y' N Z D L|x' a m l e N1 N2 M F H L|x' y' N1 N2]; unfold language.
  - rewrite (attr_found a l b r N D L). destruct l; [destruct (Z eq_refl)|reflexivity].
  - rewrite (attr_none x' r N1). apply class_found; assumption.
  - rewrite (attr_none x' r N1). apply class_none. exact N2.
Qed.

(** ** One block *)

Lemma block_length x w y content : 24 <= length (block_text x w y content).
Proof. unfold block_text. rewrite !app_length. cbn [length B String.list_ascii_of_string]. lia. Qed.

Lemma block_shape x w y content s : block_text x w y content ++ s = B "<pre" ++ x ++ ">"%char :: w ++ B "<code" ++ y ++ ">"%char :: content ++ B "</code></pre>" ++ s.
Proof. unfold block_text. rewrite <- !app_assoc. reflexivity. Qed.

Lemma has_one c : ~ has q_lang [c].
Proof. intros (a & b & E). apply (f_equal (@length ascii)) in E. rewrite !app_length in E. cbn in E. lia. Qed.

Section Steps.
Variables (sh : str -> str -> option str) (t : highlighter) (ln only ansi : bool).
Let tool : str -> str -> option str := fun lang code => sh (command t lang ln ansi) code.

Lemma gap_span w r : gaps w -> (forall c r', r = c :: r' -> gap c = false) -> span gap (w ++ r) = (w, r).
Proof.
  intros F H. apply span_word.
  - eapply Forall_impl; [|exact F]. intros c I. cbv beta in I. cbn in I. repeat destruct I as [<- | I]; try reflexivity. destruct I.
  - destruct r as [|c r]; [left; reflexivity|right]. exists c, r. split; [reflexivity|exact (H c r eq_refl)].
Qed.

Lemma pre_test x r : tag_end x -> starts (B "<pre") (B "<pre" ++ x ++ ">"%char :: r) && (ceq (at_ (B "<pre" ++ x ++ ">"%char :: r) 4) ">" || ceq (at_ (B "<pre" ++ x ++ ">"%char :: r) 4) SP) = true.
Proof. intros [_ [-> | [z ->]]]; reflexivity. Qed.

Lemma block_step x w y lang code s n b : tag_end x -> gaps w -> ~ In ">"%char y -> Lang x y lang ->
  go sh t ln only ansi (S n) (block_text x w y (escape code) ++ s) b =
  go sh t ln only ansi n s (match outcome only tool lang code with Some h => put h b | None => paste (block_text x w y (escape code)) b end).
Proof.
  intros Tx Gw Ny L.
  assert (exists c r, block_text x w y (escape code) ++ s = c :: r) as (c & r & Ec) by (eexists _, _; reflexivity).
  assert (forall rest, firstn (length (block_text x w y (escape code) ++ rest) - length rest) (block_text x w y (escape code) ++ rest) = block_text x w y (escape code)) as Fb.
  { intro rest. apply take_front. rewrite app_length. lia. }
  specialize (Fb s). revert Ec Fb. rewrite (block_shape x w y (escape code) s). intros Ec Fb.
  set (tail := w ++ B "<code" ++ y ++ ">"%char :: escape code ++ B "</code></pre>" ++ s) in *.
  cbn [go]. rewrite Ec. rewrite <- Ec. rewrite (pre_test x tail Tx).
  rewrite (tag_close (B "<pre") x tail) by (apply Tx || (vm_compute; intuition discriminate)).
  assert (skipn (S (length (B "<pre" ++ x))) (B "<pre" ++ x ++ ">"%char :: tail) = tail) as ->.
  { assert (B "<pre" ++ x ++ ">"%char :: tail = (B "<pre" ++ x ++ [">"%char]) ++ tail) as -> by (rewrite <- !app_assoc; reflexivity). apply skip_front. rewrite !app_length. cbn. lia. }
  assert (span gap tail = (w, B "<code" ++ y ++ ">"%char :: escape code ++ B "</code></pre>" ++ s)) as ->.
  { apply gap_span; [exact Gw|]. intros c' r' Q. cbn in Q. injection Q as <- _. reflexivity. }
  cbn [snd]. change (starts (B "<code") (B "<code" ++ y ++ ">"%char :: escape code ++ B "</code></pre>" ++ s)) with true. cbn [negb].
  rewrite (tag_close (B "<code") y) by (exact Ny || (vm_compute; intuition discriminate)).
  assert (skipn (S (length (B "<code" ++ y))) (B "<code" ++ y ++ ">"%char :: escape code ++ B "</code></pre>" ++ s) = escape code ++ B "</code></pre>" ++ s) as ->.
  { assert (B "<code" ++ y ++ ">"%char :: escape code ++ B "</code></pre>" ++ s = (B "<code" ++ y ++ [">"%char]) ++ escape code ++ B "</code></pre>" ++ s) as -> by (rewrite <- !app_assoc; reflexivity).
    apply skip_front. rewrite !app_length. cbn. lia. }
  rewrite (strstr_unbordered (B "</code></pre>") (escape code) s); [|reflexivity|discriminate|intros (u & v & E); apply (escape_no_lt code); rewrite E; apply in_or_app; right; left; reflexivity].
  assert (skipn (length (escape code) + 13) (escape code ++ B "</code></pre>" ++ s) = s) as ->.
  { rewrite app_assoc. apply skip_front. rewrite app_length. reflexivity. }
  rewrite Fb. rewrite (take_front (escape code)) by reflexivity.
  assert (length (B "<pre" ++ x) = 4 + length x) as -> by (rewrite app_length; reflexivity).
  assert (length (B "<code" ++ y) = 5 + length y) as -> by (rewrite app_length; reflexivity).
  rewrite (lang_read x y lang _ _ L).
  unfold unescape_html. rewrite unescape_escape by lia.
  unfold outcome, tool. destruct only, lang as [|l0 l]; cbn [andb]; try reflexivity; destruct (sh _ code) as [[|h hs]|]; reflexivity.
Qed.

Lemma byte_step c s n b : ~ pre_start (c :: s) -> go sh t ln only ansi (S n) (c :: s) b = go sh t ln only ansi n s (plain c b).
Proof.
  intro N. cbn [go]. destruct (starts (B "<pre") (c :: s)) eqn:St; [|reflexivity]. cbn [andb].
  destruct (ceq (at_ (c :: s) 4) ">" || ceq (at_ (c :: s) 4) SP) eqn:A; [|reflexivity]. exfalso. apply N.
  apply starts_spec in St. destruct St as [r E]. rewrite E in A |- *. destruct r as [|d r]; [discriminate A|]. exists d, r. split; [reflexivity|].
  change (at_ (B "<pre" ++ d :: r) 4) with d in A. apply orb_prop in A. destruct A as [A|A]; apply ceq_eq in A; auto.
Qed.

Lemma pre_step c s n b : ~ code_block (c :: s) -> go sh t ln only ansi (S n) (c :: s) b = go sh t ln only ansi n s (copy1 c b) \/ go sh t ln only ansi (S n) (c :: s) b = go sh t ln only ansi n s (plain c b).
Proof.
  intro N. cbn [go]. destruct (starts (B "<pre") (c :: s) && (ceq (at_ (c :: s) 4) ">" || ceq (at_ (c :: s) 4) SP)) eqn:St; [|right; reflexivity]. left.
  apply andb_prop in St. destruct St as [St A]. apply starts_spec in St. destruct St as [r E].
  destruct (strchr ">" (c :: s)) as [p|] eqn:P; [|reflexivity].
  apply strchr_some in P. destruct P as (u & v & Eu & Lu & Nu).
  assert (skipn (S p) (c :: s) = v) as ->.
  { rewrite Eu. assert (u ++ ">"%char :: v = (u ++ [">"%char]) ++ v) as -> by (rewrite <- app_assoc; reflexivity). apply skip_front. rewrite app_length. cbn. lia. }
  destruct (starts (B "<code") (snd (span gap v))) eqn:Sc; [|reflexivity]. cbn [negb].
  destruct (span gap v) as [w after] eqn:Sp. cbn [snd] in *.
  destruct (strchr ">" after) as [q|] eqn:Q; [|reflexivity]. apply strchr_some in Q. destruct Q as (u2 & v2 & Eu2 & Lu2 & Nu2).
  assert (skipn (S q) after = v2) as ->.
  { rewrite Eu2. assert (u2 ++ ">"%char :: v2 = (u2 ++ [">"%char]) ++ v2) as -> by (rewrite <- app_assoc; reflexivity). apply skip_front. rewrite app_length. cbn. lia. }
  destruct (strstr (B "</code></pre>") v2) as [e|] eqn:Es; [|reflexivity]. exfalso. apply N.
  apply strstr_some in Es. destruct Es as (content & rest & Ev2 & _ & _).
  apply starts_spec in Sc. destruct Sc as [z Ez].
  assert (exists x, u = B "<pre" ++ x) as [x Ex].
  { destruct (app_split u (">"%char :: v) (B "<pre") r) as (x & Ex & _); [rewrite <- Eu; exact E| |exists x; exact Ex].
    destruct (Nat.le_gt_cases 4 (length u)) as [L|L]; [exact L|]. exfalso. rewrite E in Eu.
    assert (In ">"%char (B "<pre")) as I; [|vm_compute in I; intuition discriminate].
    destruct (app_split (B "<pre") r u (">"%char :: v)) as (f & Ef & Ef2); [exact Eu|cbn; lia|].
    destruct f as [|d f]; [rewrite app_nil_r in Ef; rewrite <- Ef in L; cbn in L; lia|]. injection Ef2 as <- _. rewrite Ef. apply in_or_app. right. left. reflexivity. }
  assert (exists y, u2 = B "<code" ++ y) as [y Ey].
  { rewrite Ez in Eu2. destruct (app_split u2 (">"%char :: v2) (B "<code") z) as (y & Ey & _); [symmetry; exact Eu2| |exists y; exact Ey].
    destruct (Nat.le_gt_cases 5 (length u2)) as [L|L]; [exact L|]. exfalso.
    assert (In ">"%char (B "<code")) as I; [|vm_compute in I; intuition discriminate].
    destruct (app_split (B "<code") z u2 (">"%char :: v2)) as (f & Ef & Ef2); [exact Eu2|cbn; lia|].
    destruct f as [|d f]; [rewrite app_nil_r in Ef; rewrite <- Ef in L; cbn in L; lia|]. injection Ef2 as <- _. rewrite Ef. apply in_or_app. right. left. reflexivity. }
  pose proof (span_shape gap v) as (Fw & _ & Ew). rewrite Sp in Fw, Ew. cbn [fst snd] in Fw, Ew.
  exists x, w, y, content, rest. split; [|split; [|split]].
  - split; [intro I; apply Nu; rewrite Ex; apply in_or_app; right; exact I|].
    rewrite Eu, Ex in A. destruct x as [|d x]; [left; reflexivity|right]. change (at_ ((B "<pre" ++ d :: x) ++ ">"%char :: v) 4) with d in A.
    apply orb_prop in A. destruct A as [A|A]; apply ceq_eq in A; subst d; [destruct Nu; rewrite Ex; right; right; right; right; left; reflexivity|exists x; reflexivity].
  - eapply Forall_impl; [|exact Fw]. intros d D. unfold gap in D. repeat (apply orb_prop in D; destruct D as [D|D]); apply ceq_eq in D; subst d; cbn; tauto.
  - intro I. apply Nu2. rewrite Ey. apply in_or_app. right. exact I.
  - rewrite block_shape. rewrite Eu, Ex, Ew, Eu2, Ey, Ev2. rewrite <- !app_assoc. reflexivity.
Qed.

Lemma shown_run keep n s o : Shown only tool keep n s o -> forall fuel b, length s < fuel -> h_bad b = false -> length (h_out b) < h_cap b ->
  (keep = true -> length (h_out b) + length s + n < h_cap b) -> go sh t ln only ansi fuel s b = Out (h_out b ++ o).
Proof.
  induction 1 as [|n c s o N D IH|n c s o K N D IH|n x w y lang code h s o Tx Gw Ny L E D IH|n x w y lang code s o K Tx Gw Ny L E D IH]; intros fuel b F Hb Hl Hk.
  - destruct fuel as [|fuel]; [cbn in F; lia|]. cbn [go]. unfold finish. rewrite Hb, (proj2 (Nat.leb_gt _ _) Hl), app_nil_r. reflexivity.
  - destruct fuel as [|fuel]; [cbn in F; lia|]. rewrite byte_step by exact N. cbn [length] in F, Hk.
    rewrite IH; unfold plain, remaining; destruct (1 <? h_cap b - length (h_out b)) eqn:R; cbn [h_out h_bad h_cap]; rewrite ?app_length, ?Hb; cbn [length orb].
    + rewrite <- app_assoc. reflexivity.
    + rewrite <- app_assoc. reflexivity.
    + lia.
    + lia.
    + reflexivity.
    + apply Nat.leb_gt. lia.
    + apply Nat.ltb_lt in R. lia.
    + lia.
    + intro K. specialize (Hk K). lia.
    + intro K. specialize (Hk K). lia.
  - destruct fuel as [|fuel]; [cbn in F; lia|]. cbn [length] in F, Hk. specialize (Hk K).
    assert (copy1 c b = {| h_cap := h_cap b; h_out := h_out b ++ [c]; h_bad := h_bad b |}) as Ec.
    { unfold copy1, remaining. rewrite (proj2 (Nat.ltb_lt _ _)) by lia. reflexivity. }
    assert (plain c b = {| h_cap := h_cap b; h_out := h_out b ++ [c]; h_bad := h_bad b |}) as Ep.
    { unfold plain, remaining. rewrite (proj2 (Nat.ltb_lt _ _)) by lia. reflexivity. }
    destruct (pre_step c s fuel b N) as [-> | ->]; [rewrite Ec|rewrite Ep]; (rewrite IH; cbn [h_out h_bad h_cap]; [rewrite <- app_assoc; reflexivity|lia|exact Hb|rewrite app_length; cbn [length]; lia|intros _; rewrite app_length; cbn [length]; lia]).
  - pose proof (block_length x w y (escape code)) as Lb. destruct fuel as [|fuel]; [lia|]. rewrite (block_step x w y lang code s fuel b Tx Gw Ny L). rewrite E.
    rewrite app_length in F, Hk.
    rewrite IH; unfold put, remaining; cbn [h_out h_bad h_cap]; rewrite ?app_length.
    + rewrite <- app_assoc. reflexivity.
    + lia.
    + exact Hb.
    + destruct (h_cap b - length (h_out b) <=? length h) eqn:R; [|apply Nat.leb_gt in R]; lia.
    + intro K. specialize (Hk K). destruct (h_cap b - length (h_out b) <=? length h) eqn:R; [apply Nat.leb_le in R|]; lia.
  - pose proof (block_length x w y (escape code)) as Lb. destruct fuel as [|fuel]; [lia|]. rewrite (block_step x w y lang code s fuel b Tx Gw Ny L). rewrite E.
    rewrite app_length in F, Hk. specialize (Hk K).
    assert (paste (block_text x w y (escape code)) b = {| h_cap := h_cap b; h_out := h_out b ++ block_text x w y (escape code); h_bad := h_bad b |}) as ->.
    { unfold paste, remaining. rewrite (proj2 (Nat.leb_le _ _)) by lia. reflexivity. }
    rewrite IH; cbn [h_out h_bad h_cap]; rewrite ?app_length; [rewrite <- app_assoc; reflexivity|lia|exact Hb|lia|intros _; lia].
Qed.
End Steps.
