(** Proofs about M_Toc: the table itself. *)
From Verif Require Import Base BaseL Dec M_Toc S_Toc.

(** ** Safety *)
Definition good (w : wr) : Prop := w_ok w /\ 0 < w_rem w.
Lemma puts_good s w : good w -> good (w_puts_lt s w).
Proof.
  intros [H R]. split; [now apply w_puts_lt_ok|]. unfold w_puts_lt. destruct (Nat.ltb_spec (length s) (w_rem w)); cbn; lia.
Qed.
Lemma times_good s n : forall w, good w -> good (times n s w).
Proof. induction n as [|n IH]; intros w H; [assumption|]. apply IH, puts_good, H. Qed.
Lemma item_good h t : good (t_w t) -> good (t_w (toc_item h t)).
Proof.
  intro H. unfold toc_item. cbn [t_w]. apply puts_good.
  repeat match goal with
         | |- good (if ?b then _ else _) => destruct b
         | |- good (w_puts_lt _ _) => apply puts_good
         end; now apply times_good.
Qed.
Lemma fold_good lo hi hs : forall t, good (t_w t) -> good (t_w (fold_left (toc_step lo hi) hs t)).
Proof.
  induction hs as [|h hs IH]; intros t H; [assumption|]. cbn. apply IH. unfold toc_step.
  destruct (in_range lo hi h); [now apply item_good|assumption].
Qed.
Lemma toc_safe hs lo hi : snd (toc_html hs lo hi) = false.
Proof.
  unfold toc_html. destruct hs as [|h hs]; [reflexivity|]. cbn [snd].
  apply w_term_safe; apply puts_good, times_good, fold_good, puts_good; (split; [split; reflexivity|cbn; lia]).
Qed.

(** ** The text when everything fits *)
Definition of_hd (h : hd) : heading := (h_level h, h_text h, h_id h).
Definition down (cur last lvl : nat) : bool := Nat.ltb (Nat.min cur lvl) lvl && (Nat.eqb (Nat.min cur lvl) 0 || Nat.ltb 0 last).
Definition ncur (cur last lvl : nat) : nat := if down cur last lvl then S (Nat.min cur lvl) else Nat.min cur lvl.
Fixpoint reps (n : nat) (s : str) : str := match n with 0 => [] | S n => s ++ reps n s end.
Definition lead (cur last lvl : nat) : str :=
  reps (cur - lvl) (nl "</ul>" ++ nl "</li>") ++ (if down cur last lvl then nl "<ul>" else []) ++
  (if (Nat.ltb 0 last && Nat.leb lvl last)%bool then nl "</li>" else []).
Fixpoint body (cur last : nat) (l : list heading) : str :=
  match l with
  | [] => reps cur (nl "</li>" ++ nl "</ul>")
  | h :: l => lead cur last (level h) ++ entry h ++ body (ncur cur last (level h)) (level h) l
  end.
Lemma reps_length n s : length (reps n s) = n * length s.
Proof. induction n as [|n IH]; [reflexivity|]. cbn. rewrite app_length, IH. reflexivity. Qed.
(** [adds x w w']: [x] was added. *)
Definition adds (x : str) (w w' : wr) : Prop :=
  w_out w' = w_out w ++ x /\ w_rem w' + length x = w_rem w.
Lemma adds_nil w : adds [] w w.
Proof. split; [now rewrite app_nil_r|cbn; lia]. Qed.
Lemma adds_trans x y a b c : adds x a b -> adds y b c -> adds (x ++ y) a c.
Proof. intros [A R] [A' R']. split; [now rewrite A', A, app_assoc|rewrite app_length; lia]. Qed.
Lemma puts_adds s w : length s < w_rem w -> adds s w (w_puts_lt s w).
Proof.
  intro H. unfold w_puts_lt. pose proof H as H'. apply Nat.ltb_lt in H'. rewrite H'. split; [reflexivity|cbn; lia].
Qed.
Lemma times_adds s n : forall w, n * length s < w_rem w -> adds (reps n s) w (times n s w).
Proof.
  induction n as [|n IH]; intros w H; [apply adds_nil|]. cbn in H |- *.
  apply (adds_trans _ _ _ (w_puts_lt s w)).
  - apply puts_adds. lia.
  - apply IH. destruct (puts_adds s w) as [_ E]; lia.
Qed.
Lemma item_entry h : length (entry (of_hd h)) <= 1023 -> item h = entry (of_hd h).
Proof. intro H. unfold item. apply firstn_all2. exact H. Qed.
Lemma toc_item_adds h t : length (entry (of_hd h)) <= 1023 ->
  12 * t_cur t + 23 + length (entry (of_hd h)) < w_rem (t_w t) ->
  adds (lead (t_cur t) (t_last t) (h_level h) ++ entry (of_hd h)) (t_w t) (t_w (toc_item h t)) /\
  t_cur (toc_item h t) = ncur (t_cur t) (t_last t) (h_level h) /\ t_last (toc_item h t) = h_level h.
Proof.
  intros L R. split; [|split; reflexivity]. unfold toc_item, lead. cbn [t_w]. rewrite item_entry by assumption.
  fold (down (t_cur t) (t_last t) (h_level h)).
  set (x := nl "</ul>" ++ nl "</li>"). assert (Lx : length x = 12) by reflexivity.
  assert (T : adds (reps (t_cur t - h_level h) x) (t_w t) (times (t_cur t - h_level h) x (t_w t))) by (apply times_adds; rewrite Lx; lia).
  set (w1 := times (t_cur t - h_level h) x (t_w t)) in *. clearbody w1.
  pose proof (proj2 T) as R1. rewrite reps_length, Lx in R1.
  set (d := down (t_cur t) (t_last t) (h_level h)). clearbody d.
  assert (D : adds (if d then nl "<ul>" else []) w1 (if d then w_puts_lt (nl "<ul>") w1 else w1)).
  { destruct d; [apply puts_adds; cbn; lia|apply adds_nil]. }
  set (w2 := if d then w_puts_lt (nl "<ul>") w1 else w1) in *. clearbody w2.
  assert (R2 : w_rem w2 + 5 >= w_rem w1) by (pose proof (proj2 D) as D2; destruct d; cbn in D2; lia).
  set (e := (Nat.ltb 0 (t_last t) && Nat.leb (h_level h) (t_last t))%bool). clearbody e.
  assert (E : adds (if e then nl "</li>" else []) w2 (if e then w_puts_lt (nl "</li>") w2 else w2)).
  { destruct e; [apply puts_adds; cbn; lia|apply adds_nil]. }
  set (w3 := if e then w_puts_lt (nl "</li>") w2 else w2) in *. clearbody w3.
  assert (R3 : w_rem w3 + 6 >= w_rem w2) by (pose proof (proj2 E) as E2; destruct e; cbn in E2; lia).
  assert (I : adds (entry (of_hd h)) w3 (w_puts_lt (entry (of_hd h)) w3)) by (apply puts_adds; lia).
  rewrite <- !app_assoc.
  apply (adds_trans _ _ _ _ _ T), (adds_trans _ _ _ _ _ D), (adds_trans _ _ _ _ _ E), I.
Qed.
Lemma lead_length cur last lvl :
  length (lead cur last lvl) + 12 * ncur cur last lvl <= 12 * cur + 23.
Proof.
  unfold lead, ncur. rewrite !app_length, reps_length.
  change (length (nl "</ul>" ++ nl "</li>")) with 12.
  assert (length (if down cur last lvl then nl "<ul>" else []) = if down cur last lvl then 5 else 0) as -> by (destruct (down _ _ _); reflexivity).
  assert (length (if (0 <? last) && (lvl <=? last) then nl "</li>" else []) <= 6) by (destruct (_ && _)%bool; cbn; lia).
  destruct (down cur last lvl); lia.
Qed.
Definition cost (l : list heading) : nat := list_sum (map (fun h => 23 + length (entry h)) l).
Lemma cost_cons h l : cost (h :: l) = 23 + length (entry h) + cost l.
Proof. reflexivity. Qed.
Lemma in_range_wanted lo hi h : in_range lo hi h =
  (Z.leb lo (Z.of_nat (level (of_hd h))) && Z.leb (Z.of_nat (level (of_hd h))) hi)%bool.
Proof. unfold in_range, level, of_hd. cbn [fst]. lia. Qed.
Lemma fold_body lo hi hs : forall t,
  Forall (fun h => length (entry h) <= 1023) (wanted lo hi (map of_hd hs)) ->
  12 * t_cur t + cost (wanted lo hi (map of_hd hs)) < w_rem (t_w t) ->
  let t' := fold_left (toc_step lo hi) hs t in
  adds (body (t_cur t) (t_last t) (wanted lo hi (map of_hd hs))) (t_w t) (times (t_cur t') (nl "</li>" ++ nl "</ul>") (t_w t')) /\
  length (body (t_cur t) (t_last t) (wanted lo hi (map of_hd hs))) <= 12 * t_cur t + cost (wanted lo hi (map of_hd hs)).
Proof.
  induction hs as [|h hs IH]; intros t F R; cbn [fold_left].
  - cbn [map wanted filter body cost list_sum]. cbn in R. split; [apply times_adds|rewrite reps_length];
      change (length (nl "</li>" ++ nl "</ul>")) with 12; cbn; lia.
  - change (toc_step lo hi t h) with (if in_range lo hi h then toc_item h t else t).
    unfold wanted in *. cbn [map filter] in *. rewrite <- in_range_wanted in *.
    destruct (in_range lo hi h); [|now apply IH].
    inversion F as [|? ? F1 F2]; subst. cbn [body]. rewrite cost_cons in *.
    destruct (toc_item_adds h t) as (A & C & L); [assumption|lia|].
    pose proof (lead_length (t_cur t) (t_last t) (h_level h)) as LL.
    pose proof (proj2 A) as RA. rewrite app_length in RA.
    destruct (IH (toc_item h t) F2) as [I1 I2]; [rewrite C; lia|]. rewrite C, L in I1, I2.
    change (level (of_hd h)) with (h_level h).
    split; [rewrite app_assoc; exact (adds_trans _ _ _ _ _ A I1)|]. rewrite !app_length. lia.
Qed.
Lemma toc_body hs lo hi : hs <> [] -> fits (wanted lo hi (map of_hd hs)) ->
  fst (toc_html hs lo hi) = nl "<nav class=""toc"">" ++ body 0 0 (wanted lo hi (map of_hd hs)) ++ nl "</nav>".
Proof.
  intros N [F L]. change (list_sum (map (fun h => 23 + length (entry h)) (wanted lo hi (map of_hd hs))))
    with (cost (wanted lo hi (map of_hd hs))) in L.
  unfold toc_html. destruct hs as [|h0 hs0] eqn:E; [congruence|]. rewrite <- E in *. clear E h0 hs0.
  set (w := w_puts_lt (nl "<nav class=""toc"">") (w_new 4096 4096)).
  assert (R : w_rem w = 4096 - 18) by reflexivity. assert (O : w_out w = nl "<nav class=""toc"">") by reflexivity. clearbody w.
  cbn [fst]. unfold w_term. cbn [w_out].
  destruct (fold_body lo hi hs (Ts 0 0 w) F) as [A B0]; [cbn [t_cur t_w]; lia|]. cbn [t_cur t_last t_w] in *.
  set (w2 := times _ _ _) in *. clearbody w2. destruct A as [A1 A2].
  destruct (puts_adds (nl "</nav>") w2) as [P _]; [change (length (nl "</nav>")) with 7; lia|].
  rewrite P, A1, O, <- !app_assoc. reflexivity.
Qed.

(** ** Nesting *)
Lemma nested_plain x : ~ In "<"%char x -> forall st s, nested st (x ++ s) = nested st s.
Proof.
  induction x as [|c x IH]; intros H st s; [reflexivity|]. cbn [app nested starts].
  assert (E : ceq "<" c = false) by (apply ceq_neq; intros <-; apply H; now left).
  change (B "<ul>") with ("<"%char :: B "ul>"). change (B "</ul>") with ("<"%char :: B "/ul>").
  change (B "<li>") with ("<"%char :: B "li>"). change (B "</li>") with ("<"%char :: B "/li>"). cbn [starts]. rewrite E.
  cbn [andb]. apply IH. intro I. apply H. now right.
Qed.
Lemma nested_entry h st s : plain h -> nested st (entry h ++ s) =
  match st with Ul :: _ => nested (Li :: st) s | _ => false end.
Proof.
  intros [P Q]. unfold entry. rewrite <- !app_assoc.
  destruct st as [|[|] st]; [reflexivity| |reflexivity].
  cbn [B list_ascii_of_string app nested starts ceq Ascii.eqb Bool.eqb andb].
  rewrite nested_plain by assumption. cbn [app nested starts ceq Ascii.eqb Bool.eqb andb].
  rewrite nested_plain by assumption. reflexivity.
Qed.
Lemma nested_ul st s : nested st (nl "<ul>" ++ s) = match st with Ul :: _ => false | _ => nested (Ul :: st) s end.
Proof. destruct st as [|[|] st]; reflexivity. Qed.
Lemma nested_nul st s : nested st (nl "</ul>" ++ s) = match st with Ul :: st' => nested st' s | _ => false end.
Proof. destruct st as [|[|] st]; reflexivity. Qed.
Lemma nested_nli st s : nested st (nl "</li>" ++ s) = match st with Li :: st' => nested st' s | _ => false end.
Proof. destruct st as [|[|] st]; reflexivity. Qed.
Fixpoint stk (n : nat) : list el := match n with 0 => [] | S n => Li :: Ul :: stk n end.
Lemma nested_end n s : nested (stk n) (reps n (nl "</li>" ++ nl "</ul>") ++ s) = nested [] s.
Proof.
  induction n as [|n IH]; [reflexivity|]. cbn [reps stk]. rewrite <- !app_assoc, nested_nli, nested_nul. exact IH.
Qed.
Lemma nested_body s : nested [] s = true -> forall l cur last, Forall plain l -> 0 < cur -> cur <= last ->
  (nested (stk cur) (body cur last l ++ s) = true <-> steady cur last (map level l)).
Proof.
  intros Hs. induction l as [|h l IH]; intros cur last F C L.
  - cbn [body map steady]. rewrite nested_end. tauto.
  - inversion F as [|? ? P F']; subst. cbn [body map steady]. unfold lead. rewrite <- !app_assoc.
    assert (Last : Nat.ltb 0 last = true) by (apply Nat.ltb_lt; lia). rewrite Last. cbn [andb].
    destruct (Nat.lt_trichotomy cur (level h)) as [A|[A|A]].
    + (* deeper than the open lists *)
      replace (cur - level h) with 0 by lia. cbn [reps app].
      assert (D : down cur last (level h) = true).
      { unfold down. rewrite Last, Bool.orb_true_r, Bool.andb_true_r. apply Nat.ltb_lt. lia. }
      assert (N : ncur cur last (level h) = S cur) by (unfold ncur; rewrite D; lia). rewrite D, N, nested_ul.
      destruct cur as [|cur]; [lia|]. cbn [stk].
      destruct (Nat.leb_spec (level h) last) as [B0|B0].
      * rewrite nested_nli. split; [discriminate|]. intros [[E _]|[E _]]; lia.
      * cbn [app]. rewrite nested_entry by assumption. change (Li :: Ul :: Li :: Ul :: stk cur) with (stk (S (S cur))).
        rewrite IH by (assumption || lia). split; [intro X; right; auto|]. intros [[E _]|[_ E]]; [lia|assumption].
    + subst cur. rewrite Nat.sub_diag. cbn [reps app].
      assert (D : down (level h) last (level h) = false) by (unfold down; rewrite Nat.min_id, Nat.ltb_irrefl; reflexivity).
      assert (N : ncur (level h) last (level h) = level h) by (unfold ncur; rewrite D; lia). rewrite D, N. cbn [app].
      assert (B0 : Nat.leb (level h) last = true) by (apply Nat.leb_le; lia). rewrite B0, nested_nli.
      destruct (level h) as [|k] eqn:K; [lia|]. cbn [stk]. rewrite nested_entry by assumption.
      change (Li :: Ul :: stk k) with (stk (S k)). rewrite IH by (assumption || lia).
      split; [intro X; left; auto|]. intros [[_ E]|[E _]]; [assumption|lia].
    + destruct (cur - level h) as [|k] eqn:K; [lia|]. cbn [reps]. rewrite <- !app_assoc, nested_nul.
      destruct cur as [|cur]; [lia|]. cbn [stk]. split; [discriminate|]. intros [[E _]|[E _]]; lia.
Qed.
Lemma nested_toc l : Forall plain l -> Forall (fun h => 0 < level h) l ->
  (nested [] (nl "<nav class=""toc"">" ++ body 0 0 l ++ nl "</nav>") = true <-> climbing (map level l)).
Proof.
  intros F P. change (nested [] (nl "<nav class=""toc"">" ++ body 0 0 l ++ nl "</nav>")) with (nested [] (body 0 0 l ++ nl "</nav>")).
  destruct l as [|h l]; [cbn; tauto|]. inversion F as [|? ? F1 F2]; subst. inversion P as [|? ? P1 _]; subst.
  cbn [body map climbing]. unfold lead.
  assert (D : down 0 0 (level h) = true) by (unfold down; rewrite Nat.min_0_l; apply Nat.ltb_lt in P1; now rewrite P1).
  assert (N : ncur 0 0 (level h) = 1) by (unfold ncur; rewrite D; reflexivity). rewrite D, N. cbn [Nat.sub reps app Nat.ltb Nat.leb andb].
  rewrite <- !app_assoc, nested_ul. cbn [app]. rewrite nested_entry by assumption. change [Li; Ul] with (stk 1).
  apply nested_body; auto; reflexivity.
Qed.

(** ** Entries *)
Lemma woven_app_tag t l s : In t [B "<ul>"; B "</ul>"; B "</li>"; [NL]] -> woven l s -> woven l (t ++ s).
Proof. apply v_tag. Qed.
Lemma woven_nl t l s : In (B t) [B "<ul>"; B "</ul>"; B "</li>"; [NL]] -> woven l s -> woven l (nl t ++ s).
Proof.
  intros H W. unfold nl. rewrite <- app_assoc. apply v_tag; [assumption|]. apply v_tag; [cbn; tauto|assumption].
Qed.
Lemma woven_reps x l s n : (forall s, woven l s -> woven l (x ++ s)) -> woven l s -> woven l (reps n x ++ s).
Proof. intros H W. induction n as [|n IH]; [assumption|]. cbn. rewrite <- app_assoc. apply H, IH. Qed.
Lemma woven_body l : forall cur last, woven l (body cur last l).
Proof.
  induction l as [|h l IH]; intros cur last; cbn [body].
  - rewrite <- (app_nil_r (reps _ _)). apply woven_reps; [|constructor]. intros s W. rewrite <- app_assoc.
    apply woven_nl; [cbn; tauto|]. apply woven_nl; [cbn; tauto|assumption].
  - unfold lead. rewrite <- !app_assoc. apply woven_reps.
    + intros s W. rewrite <- app_assoc. apply woven_nl; [cbn; tauto|]. apply woven_nl; [cbn; tauto|assumption].
    + assert (E : woven (h :: l) (entry h ++ body (ncur cur last (level h)) (level h) l)) by (apply v_entry, IH).
      assert (E2 : woven (h :: l) ((if (0 <? last) && (level h <=? last) then nl "</li>" else []) ++ entry h ++ body (ncur cur last (level h)) (level h) l)).
      { destruct (_ && _)%bool; [apply woven_nl; [cbn; tauto|]; assumption|assumption]. }
      destruct (down cur last (level h)); [apply woven_nl; [cbn; tauto|]; assumption|assumption].
Qed.
