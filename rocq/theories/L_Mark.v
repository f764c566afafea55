(** Lemmas about special markers. *)
From Coq Require Import Decimal DecimalString DecimalFacts DecimalNat.
From Verif Require Import Base BaseL Dec M_Mark S_Mark L_Trans.

(** ** Numbers *)
Fixpoint uint_of (ds : str) : uint :=
  match ds with
  | [] => Nil
  | c :: r =>
      let d := uint_of r in
      match N.to_nat (code c - 48) with
      | 0 => D0 d | 1 => D1 d | 2 => D2 d | 3 => D3 d | 4 => D4 d
      | 5 => D5 d | 6 => D6 d | 7 => D7 d | 8 => D8 d | _ => D9 d
      end
  end.
Lemma digit_cases c : isdigit c = true -> In c (B "0123456789").
Proof.
  intros H. assert (A : forallb (fun c => negb (isdigit c) || existsb (ceq c) (B "0123456789")) all_bytes = true) by (vm_compute; reflexivity).
  rewrite forallb_forall in A. specialize (A c (all_bytes_complete c)). rewrite H in A. cbn [negb orb] in A.
  apply existsb_exists in A as (d & I & E). apply ceq_eq in E. subst d. exact I.
Qed.
Lemma uint_of_string ds : forallb isdigit ds = true -> B (NilEmpty.string_of_uint (uint_of ds)) = ds.
Proof.
  induction ds as [|c ds IH]; [reflexivity|]. cbn [forallb]. rewrite andb_true_iff. intros [H1 H2].
  specialize (IH H2). pose proof (digit_cases c H1) as I. cbn [B list_ascii_of_string In] in I.
  repeat (destruct I as [<-|I]; [cbn [uint_of]; match goal with |- context [N.to_nat ?x] => let v := eval vm_compute in (N.to_nat x) in change (N.to_nat x) with v end;
    cbn [NilEmpty.string_of_uint B list_ascii_of_string]; f_equal; exact IH|]). destruct I.
Qed.
Lemma nzhead_number ds : forallb isdigit ds = true ->
  B (NilZero.string_of_uint (unorm (uint_of ds))) = number ds.
Proof.
  induction ds as [|c ds IH]; [reflexivity|]. intros H. pose proof H as H'. cbn [forallb] in H. apply andb_true_iff in H as [H1 H2].
  cbn [number]. destruct (ceq c "0") eqn:Z0.
  - apply ceq_eq in Z0. subst c. cbn [uint_of]. change (N.to_nat (code "0" - 48)) with 0. cbv iota.
    unfold unorm. cbn [nzhead]. fold (unorm (uint_of ds)). exact (IH H2).
  - rewrite <- (uint_of_string (c :: ds) H') at 2. apply ceq_neq in Z0.
    pose proof (digit_cases c H1) as I. cbn [B list_ascii_of_string In] in I.
    destruct I as [I|I]; [congruence|].
    repeat (destruct I as [<-|I]; [cbn [uint_of]; match goal with |- context [N.to_nat ?x] => let v := eval vm_compute in (N.to_nat x) in change (N.to_nat x) with v end;
      reflexivity|]). destruct I.
Qed.
Lemma dec_number ds : forallb isdigit ds = true -> dec (Z.to_nat (digits_value ds)) = number ds.
Proof.
  intros H. assert (V : digits_value ds = Z.of_nat (Nat.of_uint (uint_of ds))).
  { unfold digits_value. rewrite <- (uint_of_string ds H) at 1. apply (uint_value (uint_of ds) 0). }
  rewrite V, Nat2Z.id. unfold dec. rewrite DecimalNat.Unsigned.to_of. apply nzhead_number, H.
Qed.
Lemma number_length ds : length (number ds) <= Nat.max 1 (length ds).
Proof.
  induction ds as [|c ds IH]; [cbn; lia|]. cbn [number]. destruct (ceq c "0"); cbn [length] in *; lia.
Qed.

(** ** What is found at a place *)
Inductive found := FEnd | FBlock (r : str) | FPage (r : str) | FPause (n : Z) (r : str) | FIndex | FByte.
Definition look (pre s : str) : found :=
  match s with
  | [] => FEnd
  | c :: s' =>
      match (if ceq c "^" && line_start pre then line_end s' else None) with
      | Some r => FBlock r
      | None =>
          if starts (B "<!--BREAK-->") s then FPage (skipn 12 s)
          else match (if starts (B "<!--PAUSE:") s then pause s else None) with
               | Some (n, r) => FPause n r
               | None => if starts (B "{::pagebreak /}") s then FPage (skipn 15 s)
                         else if seq_ s (B "{index}") then FIndex else FByte
               end
      end
  end.
Lemma loop_look fuel pre s w :
  marks_loop (S fuel) pre s w =
  match look pre s with
  | FEnd => Some (Marked (w_term w))
  | FBlock r => marks_loop fuel (consumed s r pre) r (w_puts_lt BLOCK_END w)
  | FPage r => marks_loop fuel (consumed s r pre) r (put_grown PAGE w)
  | FPause n r => if (INT_MAX <? n)%Z then Some Overflow else marks_loop fuel (consumed s r pre) r (w_puts_lt (pause_div n) w)
  | FIndex => Some Behind
  | FByte => marks_loop fuel (consumed s (tl s) pre) (tl s) (w_put (at_ s 0) w)
  end.
Proof.
  destruct s as [|c s']; [reflexivity|]. unfold look. cbn [marks_loop].
  destruct (if ceq c "^" && line_start pre then line_end s' else None); [reflexivity|].
  destruct (starts (B "<!--BREAK-->") (c :: s')); [reflexivity|].
  destruct (if starts (B "<!--PAUSE:") (c :: s') then pause (c :: s') else None) as [[n r]|]; [reflexivity|].
  destruct (starts (B "{::pagebreak /}") (c :: s')); [reflexivity|].
  destruct (seq_ (c :: s') (B "{index}")); reflexivity.
Qed.

Lemma blank_is c : blank c = true <-> is_blank c.
Proof. unfold blank, is_blank. rewrite orb_true_iff, !ceq_eq. cbn [In]. intuition. Qed.
Lemma span_blanks (a b : str) : Forall is_blank a -> (forall c r, b = c :: r -> ~ is_blank c) -> span blank (a ++ b) = (a, b).
Proof.
  intros F H. induction F as [|c a Hc F IH]; cbn [app].
  - destruct b as [|c b]; [reflexivity|]. cbn [span]. destruct (blank c) eqn:E; [|reflexivity]. apply blank_is in E. destruct (H c b eq_refl E).
  - cbn [span]. rewrite (proj2 (blank_is c) Hc), IH. reflexivity.
Qed.
Lemma nl_not_blank : ~ is_blank NL.
Proof. intros [E|[E|[]]]; discriminate. Qed.
Lemma span_blank_all a : Forall is_blank a -> span blank a = (a, []).
Proof. intros F. pose proof (span_blanks a [] F) as H. rewrite app_nil_r in H. apply H. discriminate. Qed.

Lemma line_start_spec pre : line_start (rev pre) = true <-> fresh_line pre.
Proof.
  unfold line_start, fresh_line. split.
  - destruct (rev pre) as [|c r] eqn:E; [left; apply (f_equal (@rev ascii)) in E; rewrite rev_involutive in E; exact E|].
    intros H. right. destruct (span blank (c :: r)) as [g q] eqn:Sp. cbn [snd] in H.
    destruct q as [|d q]; [discriminate|]. cbn [at_ nth] in H. apply ceq_eq in H. subst d.
    pose proof (span_app _ _ _ _ Sp) as E2. pose proof (span_all _ _ _ _ Sp) as A.
    exists (rev q), (rev g). split.
    + rewrite <- (rev_involutive pre), E, E2, rev_app_distr. cbn [rev]. rewrite <- app_assoc. reflexivity.
    + apply Forall_rev. rewrite forallb_forall in A. apply Forall_forall. intros x I. apply blank_is, A, I.
  - intros [->|(p & g & -> & F)]; [reflexivity|]. rewrite rev_app_distr. cbn [rev]. rewrite <- app_assoc. cbn [app].
    rewrite span_blanks; [|apply Forall_rev, F|intros c r E; injection E as <- <-; exact nl_not_blank].
    cbn [snd at_ nth]. destruct (rev g ++ NL :: rev p) eqn:E; [destruct (rev g); discriminate|reflexivity].
Qed.
Lemma line_end_some s r : line_end s = Some r <->
  exists b, Forall is_blank b /\ (s = b ++ NL :: r \/ s = b /\ r = []).
Proof.
  unfold line_end. split.
  - destruct (span blank s) as [b q] eqn:Sp. pose proof (span_app _ _ _ _ Sp) as E. pose proof (span_all _ _ _ _ Sp) as A. cbn [snd].
    intros H. exists b. split.
    + rewrite forallb_forall in A. apply Forall_forall. intros x I. apply blank_is, A, I.
    + destruct q as [|c q]; [injection H as <-; rewrite app_nil_r in E; auto|].
      destruct (ceq c NL) eqn:C; [|discriminate]. injection H as <-. apply ceq_eq in C. subst c. auto.
  - intros (b & F & [->|[-> ->]]).
    + rewrite span_blanks by (try assumption; intros c x E; injection E as <- <-; exact nl_not_blank). reflexivity.
    + rewrite span_blank_all by exact F. reflexivity.
Qed.

Definition found_of (t : mtok) (rest : str) : found :=
  match t with
  | MByte _ => FByte
  | BlockEnd _ _ => FBlock rest
  | Break | PageBreak => FPage rest
  | Pause ds => FPause (digits_value ds) rest
  end.
Lemma look_marker pre t rest : marker pre t rest -> look (rev pre) (write_mtok t ++ rest) = found_of t rest.
Proof.
  destruct t as [c|b n| | |ds]; cbn [marker]; [intros []| | | |].
  - intros (F & L & N). cbn [write_mtok app look found_of]. rewrite ceq_refl, (proj2 (line_start_spec pre) L). cbn [andb].
    replace (line_end ((b ++ (if n then [NL] else [])) ++ rest)) with (Some rest); [reflexivity|]. symmetry. apply line_end_some.
    exists b. split; [exact F|]. destruct n.
    + left. rewrite <- app_assoc. reflexivity.
    + rewrite (N eq_refl), !app_nil_r. auto.
  - reflexivity.
  - reflexivity.
  - intros D. cbn [write_mtok found_of].
    change ((B "<!--PAUSE:" ++ ds ++ B "-->") ++ rest) with
      ("<"%char :: "!"%char :: "-"%char :: "-"%char :: "P"%char :: "A"%char :: "U"%char :: "S"%char :: "E"%char :: ":"%char :: (ds ++ B "-->") ++ rest).
    unfold look. change (ceq "<" "^") with false. cbn [andb]. change (starts (B "<!--BREAK-->") _) with false. cbv iota.
    change (starts (B "<!--PAUSE:") _) with true. cbv iota. unfold pause. cbn [skipn]. rewrite <- app_assoc.
    change (B "-->" ++ rest) with ("-"%char :: "-"%char :: ">"%char :: rest). rewrite span_digits_stop by (auto; reflexivity).
    reflexivity.
Qed.
Lemma look_found pre s : 
  match look (rev pre) s with
  | FEnd => s = []
  | FIndex => s = B "{index}"
  | FByte => s <> [] /\ s <> B "{index}"
  | f => exists t r, marker pre t r /\ s = write_mtok t ++ r /\ f = found_of t r
  end.
Proof.
  destruct s as [|c s]; [reflexivity|]. unfold look.
  destruct (if ceq c "^" && line_start (rev pre) then line_end s else None) as [r|] eqn:E1.
  { destruct (ceq c "^" && line_start (rev pre)) eqn:C; [|discriminate]. apply andb_true_iff in C as [C L].
    apply ceq_eq in C. subst c. apply line_start_spec in L. apply line_end_some in E1 as (b & F & [->|[-> ->]]).
    - exists (BlockEnd b true), r. split; [|split; [|reflexivity]].
      + split; [exact F|]. split; [exact L|discriminate].
      + cbn [write_mtok app]. rewrite <- app_assoc. reflexivity.
    - exists (BlockEnd b false), []. split; [|split; [|reflexivity]].
      + split; [exact F|]. split; [exact L|reflexivity].
      + cbn [write_mtok app]. rewrite !app_nil_r. reflexivity. }
  destruct (starts (B "<!--BREAK-->") (c :: s)) eqn:E2.
  { apply starts_spec in E2 as (r & E). rewrite E. exists Break, r. split; [exact I|]. split; reflexivity. }
  destruct (if starts (B "<!--PAUSE:") (c :: s) then pause (c :: s) else None) as [[n r]|] eqn:E3.
  { destruct (starts (B "<!--PAUSE:") (c :: s)) eqn:P; [|discriminate]. apply starts_spec in P as (q & P). rewrite P in *.
    unfold pause in E3. change (skipn 10 (B "<!--PAUSE:" ++ q)) with q in E3.
    destruct (span isdigit q) as [ds x] eqn:Sp. destruct (starts (B "-->") x) eqn:Sx; [|discriminate].
    apply starts_spec in Sx as (y & ->). injection E3 as <- <-. exists (Pause ds), y. split; [|split].
    - exact (span_all _ _ _ _ Sp).
    - cbn [write_mtok]. rewrite (span_app _ _ _ _ Sp), <- !app_assoc. reflexivity.
    - reflexivity. }
  destruct (starts (B "{::pagebreak /}") (c :: s)) eqn:E4.
  { apply starts_spec in E4 as (r & E). rewrite E. exists PageBreak, r. split; [exact I|]. split; reflexivity. }
  destruct (seq_ (c :: s) (B "{index}")) eqn:E5; [apply seq_eq, E5|].
  split; [discriminate|]. intros E. apply seq_eq in E. congruence.
Qed.

Lemma consumed_app pre a r : consumed (a ++ r) r (rev pre) = rev (pre ++ a).
Proof.
  unfold consumed. rewrite app_length. replace (length a + length r - length r) with (length a) by lia.
  rewrite firstn_app, firstn_all, Nat.sub_diag. cbn [firstn]. rewrite app_nil_r, rev_app_distr. reflexivity.
Qed.

(** ** There is room *)
Definition ready (n : nat) (w : wr) : Prop :=
  w_oob w = false /\ w_rem w = w_cap w - length (w_out w) /\ length (w_out w) + n < w_cap w.
Lemma puts_ready x n w : ready (length x + n) w -> ready n (w_puts_lt x w) /\ w_out (w_puts_lt x w) = w_out w ++ x.
Proof.
  intros (O & R & C). unfold w_puts_lt. destruct (Nat.ltb_spec (length x) (w_rem w)); [|lia].
  unfold ready. cbn [w_set_rem w_store w_oob w_rem w_cap w_out]. rewrite O, app_length.
  split; [|reflexivity]. split; [|lia]. destruct x; [reflexivity|]. cbn [orb]. apply Nat.ltb_ge. lia.
Qed.
Lemma put_ready c n w : ready (1 + n) w -> ready n (w_put c w) /\ w_out (w_put c w) = w_out w ++ [c].
Proof.
  intros (O & R & C). unfold w_put. destruct (Nat.ltb_spec 0 (w_rem w)); [|lia].
  unfold ready. cbn [w_set_rem w_store w_oob w_rem w_cap w_out]. rewrite O, app_length. cbn [length].
  split; [|reflexivity]. split; [|lia]. cbn [orb]. apply Nat.ltb_ge. lia.
Qed.
Lemma grown_ready x n w : ready (length x + n) w -> ready n (put_grown x w) /\ w_out (put_grown x w) = w_out w ++ x.
Proof.
  intros (O & R & C). unfold put_grown. destruct (Nat.leb_spec (w_rem w) (length x)); [lia|].
  unfold ready. cbn [w_set_rem w_store w_oob w_rem w_cap w_out]. rewrite O, app_length.
  split; [|reflexivity]. split; [|lia]. destruct x; [reflexivity|]. cbn [orb]. apply Nat.ltb_ge. lia.
Qed.
Lemma term_ready w : ready 0 w -> w_oob (w_term w) = false.
Proof. intros (O & R & C). unfold w_term. cbn [w_oob]. rewrite O. cbn [orb]. apply Nat.leb_gt. lia. Qed.

Lemma page_shown : PAGE = shown Break.
Proof. vm_compute. reflexivity. Qed.
Lemma block_shown b n : BLOCK_END = shown (BlockEnd b n).
Proof. reflexivity. Qed.
Lemma pause_shown ds : forallb isdigit ds = true -> pause_div (digits_value ds) = shown (Pause ds).
Proof.
  intros D. unfold pause_div. rewrite (dec_number ds D). unfold shown, quot. rewrite <- !app_comm_cons, <- !app_assoc. reflexivity.
Qed.

Lemma write_nonempty t : 1 <= length (write_mtok t).
Proof. destruct t; cbn; try lia. Qed.

Lemma marks_ok l : forall fuel pre w, mtoks_ok pre l -> short_pauses l -> ~ index_at_end (write_mtoks l) ->
  length (write_mtoks l) < fuel -> ready (length (shown_all l)) w ->
  exists w', marks_loop fuel (rev pre) (write_mtoks l) w = Some (Marked w') /\ w_oob w' = false /\ w_out w' = w_out w ++ shown_all l.
Proof.
  induction l as [|t l IH]; intros fuel pre w OK Sp NI L R; (destruct fuel as [|fuel]; [lia|]).
  - cbn. eexists. split; [reflexivity|]. split; [exact (term_ready w R)|]. cbn [w_term w_out]. rewrite app_nil_r. reflexivity.
  - destruct OK as [Ht OK]. change (write_mtoks (t :: l)) with (write_mtok t ++ write_mtoks l) in *.
    change (shown_all (t :: l)) with (shown t ++ shown_all l) in *. rewrite app_length in L, R.
    pose proof (write_nonempty t) as Lt.
    assert (Sp' : short_pauses l) by (intros ds I; apply Sp; right; exact I).
    assert (NI' : ~ index_at_end (write_mtoks l)).
    { intros (a & E). apply NI. exists (write_mtok t ++ a). rewrite E, app_assoc. reflexivity. }
    assert (K : exists w1, marks_loop (S fuel) (rev pre) (write_mtok t ++ write_mtoks l) w =
                  marks_loop fuel (rev (pre ++ write_mtok t)) (write_mtoks l) w1 /\
                ready (length (shown_all l)) w1 /\ w_out w1 = w_out w ++ shown t).
    { rewrite loop_look. destruct t as [c|b n| | |ds].
      - pose proof (look_found pre (write_mtok (MByte c) ++ write_mtoks l)) as Lk.
        destruct (look (rev pre) (write_mtok (MByte c) ++ write_mtoks l)) eqn:E;
          try (destruct Lk as (t' & r' & M & Es & _); destruct (Ht t' r' M Es)).
        + discriminate.
        + destruct NI. exists []. exact Lk.
        + cbn [write_mtok app tl at_ nth]. exists (w_put c w). split.
          * rewrite <- (consumed_app pre [c] (write_mtoks l)). reflexivity.
          * apply put_ready. exact R.
      - rewrite (look_marker pre _ _ Ht). cbn [found_of]. eexists. split; [rewrite consumed_app; reflexivity|].
        rewrite (block_shown b n). apply puts_ready, R.
      - rewrite (look_marker pre Break _ Ht). cbn [found_of]. eexists. split; [rewrite consumed_app; reflexivity|].
        rewrite page_shown. apply grown_ready, R.
      - rewrite (look_marker pre PageBreak _ Ht). cbn [found_of]. eexists. split; [rewrite consumed_app; reflexivity|].
        rewrite page_shown. apply grown_ready, R.
      - rewrite (look_marker pre _ _ Ht). cbn [found_of]. specialize (Sp ds (or_introl eq_refl)).
        destruct (Z.ltb_spec INT_MAX (digits_value ds)) as [X|X]; [unfold INT_MAX in X; lia|].
        eexists. split; [rewrite consumed_app; reflexivity|].
        rewrite (pause_shown ds Ht). apply puts_ready, R. }
    destruct K as (w1 & -> & R1 & O1). destruct (IH fuel (pre ++ write_mtok t) w1 OK Sp' NI') as (w' & E & O & Eo); [lia|exact R1|].
    exists w'. split; [exact E|]. split; [exact O|]. rewrite Eo, O1, <- app_assoc. reflexivity.
Qed.

Lemma markers_exact l : mtoks_ok [] l -> short_pauses l -> ~ index_at_end (write_mtoks l) ->
  length (shown_all l) < 4 * length (write_mtoks l) ->
  exists w, special_markers (write_mtoks l) = Some (Marked w) /\ w_oob w = false /\ w_out w = shown_all l.
Proof.
  intros OK Sp NI L. destruct (marks_ok l (S (length (write_mtoks l))) []
    (w_new (length (write_mtoks l) * 4) (length (write_mtoks l) * 4)) OK Sp NI) as (w & E & O & Eo).
  - lia.
  - split; [reflexivity|]. cbn [w_new w_rem w_cap w_out length]. lia.
  - exists w. split; [exact E|]. split; [exact O|exact Eo].
Qed.

Lemma mtoks_exists n : forall pre s, length s <= n -> exists l, mtoks_ok pre l /\ write_mtoks l = s.
Proof.
  induction n as [|n IH]; intros pre s L.
  - destruct s; [|cbn [length] in L; lia]. exists []. split; [exact I|reflexivity].
  - destruct s as [|c s]; [exists []; split; [exact I|reflexivity]|]. cbn [length] in L.
    assert (D : (exists t r, marker pre t r /\ c :: s = write_mtok t ++ r) \/ (forall t r, marker pre t r -> c :: s <> write_mtok t ++ r)).
    { pose proof (look_found pre (c :: s)) as F. destruct (look (rev pre) (c :: s)) eqn:E.
      - discriminate.
      - left. destruct F as (t & q & M & Es & _). eauto.
      - left. destruct F as (t & q & M & Es & _). eauto.
      - left. destruct F as (t & q & M & Es & _). eauto.
      - right. intros t r M Es. pose proof (look_marker pre t r M) as X. rewrite <- Es, E in X. destruct t; try discriminate; destruct M.
      - right. intros t r M Es. pose proof (look_marker pre t r M) as X. rewrite <- Es, E in X. destruct t; try discriminate; destruct M. }
    destruct D as [(t & r & M & E)|D].
    + pose proof (write_nonempty t) as Lt. assert (Lr : length r <= n).
      { apply (f_equal (@length ascii)) in E. rewrite app_length in E. cbn [length] in E. lia. }
      destruct (IH (pre ++ write_mtok t) r Lr) as (l & OK & El). exists (t :: l). split.
      * split; [|exact OK]. rewrite El. destruct t; [destruct M|exact M..].
      * change (write_mtoks (t :: l)) with (write_mtok t ++ write_mtoks l). rewrite El. symmetry. exact E.
    + destruct (IH (pre ++ [c]) s) as (l & OK & El); [lia|]. exists (MByte c :: l). split.
      * split; [|exact OK]. rewrite El. exact D.
      * change (write_mtoks (MByte c :: l)) with (c :: write_mtoks l). rewrite El. reflexivity.
Qed.
Lemma mtoks_of s : exists l, mtoks_ok [] l /\ write_mtoks l = s.
Proof. exact (mtoks_exists (length s) [] s (le_n _)). Qed.

(** ** The index marker at the end *)
Lemma brace_write t r pre : marker pre t r -> forall a, write_mtok t ++ r = a ++ B "{index}" -> exists a', a = write_mtok t ++ a' /\ r = a' ++ B "{index}".
Proof.
  intros M a E.
  assert (K : length (write_mtok t) <= length a).
  { destruct (Nat.le_gt_cases (length (write_mtok t)) (length a)) as [K|K]; [exact K|]. exfalso.
    assert (I : nth (length a) (write_mtok t) NUL = "{"%char).
    { pose proof (f_equal (fun x => nth (length a) x NUL) E) as E'. cbv beta in E'. rewrite app_nth1 in E' by exact K.
      rewrite app_nth2 in E' by lia. rewrite Nat.sub_diag in E'. exact E'. }
    assert (J : In "{"%char (write_mtok t)) by (rewrite <- I; apply nth_In, K).
    destruct t as [c|b n| | |ds]; cbn [marker write_mtok] in *; [destruct M| | | |].
    - destruct M as (F & _). destruct J as [J|J]; [discriminate|]. apply in_app_or in J as [J|J].
      + rewrite Forall_forall in F. specialize (F _ J). destruct F as [X|[X|[]]]; discriminate.
      + destruct n; cbn in J; intuition discriminate.
    - cbn in J. intuition discriminate.
    - destruct a as [|x a]; [discriminate|].
      assert (J2 : In "{"%char (B "::pagebreak /}")).
      { rewrite <- I. change (B "{::pagebreak /}") with ("{"%char :: B "::pagebreak /}") in *. cbn [length nth] in *. apply nth_In. lia. }
      cbn in J2. intuition discriminate.
    - rewrite forallb_forall in M. rewrite !in_app_iff in J. destruct J as [J|[J|J]].
      + cbn in J. intuition discriminate.
      + specialize (M _ J). discriminate.
      + cbn in J. intuition discriminate. }
  exists (skipn (length (write_mtok t)) a).
  assert (Ea : firstn (length (write_mtok t)) a = write_mtok t).
  { pose proof (f_equal (firstn (length (write_mtok t))) E) as E'. rewrite !firstn_app, firstn_all, Nat.sub_diag in E'.
    replace (length (write_mtok t) - length a) with 0 in E' by lia. cbn [firstn] in E'. rewrite !app_nil_r in E'. symmetry. exact E'. }
  split; [rewrite <- Ea at 1; symmetry; apply firstn_skipn|].
  pose proof (f_equal (skipn (length (write_mtok t))) E) as E'. rewrite !skipn_app, skipn_all, Nat.sub_diag in E'.
  replace (length (write_mtok t) - length a) with 0 in E' by lia. exact E'.
Qed.
Lemma marks_index l : forall fuel pre w a, mtoks_ok pre l -> short_pauses l -> write_mtoks l = a ++ B "{index}" ->
  length (write_mtoks l) < fuel -> marks_loop fuel (rev pre) (write_mtoks l) w = Some Behind.
Proof.
  induction l as [|t l IH]; intros fuel pre w a OK Sp E L; (destruct fuel as [|fuel]; [lia|]).
  - apply (f_equal (@length ascii)) in E. rewrite app_length in E. cbn in E. lia.
  - destruct OK as [Ht OK]. change (write_mtoks (t :: l)) with (write_mtok t ++ write_mtoks l) in *.
    rewrite app_length in L. pose proof (write_nonempty t) as Lt.
    assert (Sp' : short_pauses l) by (intros ds I; apply Sp; right; exact I).
    rewrite loop_look. destruct t as [c|b n| | |ds].
    + pose proof (look_found pre (write_mtok (MByte c) ++ write_mtoks l)) as Lk.
      destruct (look (rev pre) (write_mtok (MByte c) ++ write_mtoks l)) eqn:El;
        try (destruct Lk as (t' & r' & M & Es & _); destruct (Ht t' r' M Es)).
      * discriminate.
      * reflexivity.
      * destruct Lk as [_ Ni]. destruct a as [|x a]; [destruct (Ni E)|]. cbn [write_mtok app tl at_ nth] in *. injection E as <- E.
        change (c :: write_mtoks l) with ([c] ++ write_mtoks l). rewrite consumed_app. eapply IH; [exact OK|exact Sp'|exact E|cbn [length] in L; lia].
    + rewrite (look_marker pre _ _ Ht). cbn [found_of]. rewrite consumed_app.
      destruct (brace_write (BlockEnd b n) (write_mtoks l) pre Ht a E) as (a' & _ & E'). eapply IH; [exact OK|exact Sp'|exact E'|lia].
    + rewrite (look_marker pre Break _ Ht). cbn [found_of]. rewrite consumed_app.
      destruct (brace_write Break (write_mtoks l) pre Ht a E) as (a' & _ & E'). eapply IH; [exact OK|exact Sp'|exact E'|lia].
    + rewrite (look_marker pre PageBreak _ Ht). cbn [found_of]. rewrite consumed_app.
      destruct (brace_write PageBreak (write_mtoks l) pre Ht a E) as (a' & _ & E'). eapply IH; [exact OK|exact Sp'|exact E'|lia].
    + rewrite (look_marker pre _ _ Ht). cbn [found_of]. rewrite consumed_app.
      destruct (Z.ltb_spec INT_MAX (digits_value ds)) as [X|X]; [specialize (Sp ds (or_introl eq_refl)); unfold INT_MAX in X; lia|].
      destruct (brace_write (Pause ds) (write_mtoks l) pre Ht a E) as (a' & _ & E'). eapply IH; [exact OK|exact Sp'|exact E'|lia].
Qed.
Lemma markers_index l : mtoks_ok [] l -> short_pauses l -> index_at_end (write_mtoks l) ->
  special_markers (write_mtoks l) = Some Behind.
Proof. intros OK Sp (a & E). eapply (marks_index l _ []); [exact OK|exact Sp|exact E|lia]. Qed.

(** ** Texts that do not outgrow the buffer *)
Lemma shown_short t : t <> Break -> t <> PageBreak -> (forall b, t <> BlockEnd b false) -> length (shown t) < 4 * length (write_mtok t).
Proof.
  intros N1 N2 N3. destruct t as [c|b n| | |ds]; try congruence.
  - cbn. lia.
  - destruct n; [|destruct (N3 b eq_refl)]. cbn [shown write_mtok]. cbn [length app]. rewrite app_length. cbn [length]. lia.
  - cbn [shown write_mtok]. unfold quot. repeat (rewrite app_length || cbn [length]). cbn [length B list_ascii_of_string].
    pose proof (number_length ds). lia.
Qed.
Lemma no_break_short l : no_page_break l -> (forall l' b, l <> l' ++ [BlockEnd b false]) -> forall pre, mtoks_ok pre l -> l <> [] ->
  length (shown_all l) < 4 * length (write_mtoks l).
Proof.
  intros NB. induction l as [|t l IH]; [congruence|]. intros NE pre [Ht OK] _.
  change (write_mtoks (t :: l)) with (write_mtok t ++ write_mtoks l). change (shown_all (t :: l)) with (shown t ++ shown_all l).
  rewrite !app_length. assert (S : length (shown t) < 4 * length (write_mtok t)).
  { apply shown_short.
    - intros ->. apply (proj1 NB). left. reflexivity.
    - intros ->. apply (proj2 NB). left. reflexivity.
    - intros b ->. destruct Ht as (_ & _ & N). specialize (N eq_refl). destruct l as [|t' l']; [destruct (NE [] b eq_refl)|].
      pose proof (write_nonempty t') as W. change (write_mtoks (t' :: l')) with (write_mtok t' ++ write_mtoks l') in N.
      destruct (write_mtok t'); [cbn in W; lia|discriminate]. }
  destruct l as [|t' l']; [cbn [write_mtoks shown_all map concat length]; lia|].
  assert (S2 : length (shown_all (t' :: l')) < 4 * length (write_mtoks (t' :: l'))).
  { apply (IH ltac:(split; intros I; [apply (proj1 NB)|apply (proj2 NB)]; right; exact I) ltac:(intros l0 b E; apply (NE (t :: l0) b); rewrite E; reflexivity) _ OK). discriminate. }
  lia.
Qed.
Lemma markers_no_break l : mtoks_ok [] l -> short_pauses l -> ~ index_at_end (write_mtoks l) ->
  l <> [] -> no_page_break l -> (forall l' b, l <> l' ++ [BlockEnd b false]) ->
  exists w, special_markers (write_mtoks l) = Some (Marked w) /\ w_oob w = false /\ w_out w = shown_all l.
Proof. intros OK Sp NI N NB NE. apply markers_exact; try assumption. eapply no_break_short; eassumption. Qed.

Lemma write_bytes s : write_mtoks (map MByte s) = s.
Proof. induction s as [|c s IH]; [reflexivity|]. change (write_mtoks (map MByte (c :: s))) with (c :: write_mtoks (map MByte s)). rewrite IH. reflexivity. Qed.
Lemma shown_bytes s : shown_all (map MByte s) = s.
Proof. induction s as [|c s IH]; [reflexivity|]. change (shown_all (map MByte (c :: s))) with (c :: shown_all (map MByte s)). rewrite IH. reflexivity. Qed.
Lemma markers_none s : s <> [] -> ~ index_at_end s -> (forall a t r, marker a t r -> s <> a ++ write_mtok t ++ r) ->
  exists w, special_markers s = Some (Marked w) /\ w_oob w = false /\ w_out w = s.
Proof.
  intros N NI H. pose proof (markers_exact (map MByte s)) as K. rewrite write_bytes, shown_bytes in K. apply K.
  - assert (G : forall s2 pre, s = pre ++ s2 -> mtoks_ok pre (map MByte s2)).
    { induction s2 as [|c s2 IH]; intros pre E; [exact I|]. split.
      - intros t r M E'. apply (H pre t r M). rewrite <- E', write_bytes. exact E.
      - apply IH. rewrite <- app_assoc. exact E. }
    apply G. reflexivity.
  - intros ds I. apply in_map_iff in I as (c & E & _). discriminate.
  - exact NI.
  - destruct s; [congruence|cbn [length]; lia].
Qed.
