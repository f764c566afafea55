(** Lemmas about heading ids. *)
From Verif Require Import Base BaseL M_Ids S_Ids L_Trans.

Lemma skip_all names f a r st : ids_loop names f (a ++ r) (length a) st = ids_loop names f r 0 st.
Proof. induction a as [|c a IH]; [destruct r; reflexivity|]. exact IH. Qed.
Lemma loop_cons names f c s st :
  ids_loop names f (c :: s) 0 st =
  let (k, st') := id_step names f c (c :: s) st in ids_loop names f s k st'.
Proof. reflexivity. Qed.

(** ** Bytes *)
Lemma between_spec lo hi c : between lo hi c = true <-> (lo <= code c <= hi)%N.
Proof. unfold between. rewrite andb_true_iff, !N.leb_le. reflexivity. Qed.
Lemma cont_spec c : continuation c = true <-> cont c.
Proof. apply between_spec. Qed.
Lemma conts_spec t : forallb continuation t = true <-> Forall cont t.
Proof.
  rewrite forallb_forall, Forall_forall. split; intros H x I; apply cont_spec, H, I.
Qed.
Lemma follow_len c k : follow c k <-> seq_len c = S k /\ 0 < k.
Proof.
  unfold follow, seq_len.
  destruct (between 192 223 c) eqn:B1; [apply between_spec in B1; lia|].
  destruct (between 224 239 c) eqn:B2; [apply between_spec in B2; lia|].
  destruct (between 240 247 c) eqn:B3; [apply between_spec in B3; lia|].
  assert (~ (192 <= code c <= 223)%N) by (rewrite <- between_spec; congruence).
  assert (~ (224 <= code c <= 239)%N) by (rewrite <- between_spec; congruence).
  assert (~ (240 <= code c <= 247)%N) by (rewrite <- between_spec; congruence).
  lia.
Qed.
Lemma lead_high c k : follow c k -> (192 <= code c)%N.
Proof. unfold follow. lia. Qed.
Lemma high_not_alnum c : (128 <= code c)%N -> isalnum c = false.
Proof.
  intros H. unfold isalnum, isalpha, isupper, islower, isdigit.
  destruct (between 65 90 c) eqn:B1; [apply between_spec in B1; lia|].
  destruct (between 97 122 c) eqn:B2; [apply between_spec in B2; lia|].
  destruct (between 48 57 c) eqn:B3; [apply between_spec in B3; lia|]. reflexivity.
Qed.
Lemma high_not c d : (128 <= code c)%N -> (code d < 128)%N -> ceq c d = false.
Proof. intros H L. apply ceq_neq. intros ->. lia. Qed.
Lemma low_seq c : (code c < 128)%N -> continuation c = false /\ seq_len c = 0.
Proof.
  intros H. split.
  - destruct (continuation c) eqn:E; [|reflexivity]. apply cont_spec in E. unfold cont in E. lia.
  - unfold seq_len. destruct (between 192 223 c) eqn:B1; [apply between_spec in B1; lia|].
    destruct (between 224 239 c) eqn:B2; [apply between_spec in B2; lia|].
    destruct (between 240 247 c) eqn:B3; [apply between_spec in B3; lia|]. reflexivity.
Qed.
Lemma general_head b c s : general b (c :: s) = true -> c = E2.
Proof. unfold general. cbn [at_ nth]. rewrite !andb_true_iff, !ceq_eq. tauto. Qed.
Lemma low_general c s : (code c < 128)%N -> em_en (c :: s) = false /\ apostrophe (c :: s) = false.
Proof.
  intros H. assert (G : forall b, general b (c :: s) = false).
  { intros b. destruct (general b (c :: s)) eqn:E; [|reflexivity]. apply general_head in E. subst c. cbn in H. lia. }
  unfold em_en, apostrophe. rewrite !G. auto.
Qed.

(** ** Sequences *)
Lemma seq_complete u : sequence u -> forall r,
  exists c t, u = c :: t /\ (192 <= code c)%N /\ continuation c = false /\ seq_len c = length u /\ 2 <= length u /\
              complete (length u) (u ++ r) = true /\ firstn (length u) (u ++ r) = u.
Proof.
  intros (c & t & -> & F & K) r. exists c, t. pose proof (lead_high _ _ F) as L. apply follow_len in F as [F P].
  assert (continuation c = false) as NC.
  { destruct (continuation c) eqn:E; [|reflexivity]. apply cont_spec in E. unfold cont in E. lia. }
  repeat split; auto; [cbn [length]; lia| |rewrite firstn_app, Nat.sub_diag, firstn_all; apply app_nil_r].
  unfold complete. rewrite app_length. replace (Nat.leb _ _) with true by (symmetry; apply Nat.leb_le; lia).
  cbn [length app skipn andb Nat.sub]. rewrite Nat.sub_0_r, firstn_app, Nat.sub_diag, firstn_all, app_nil_r. apply conts_spec, K.
Qed.
Lemma complete_seq c s : 0 < seq_len c -> complete (seq_len c) (c :: s) = true ->
  exists u r, c :: s = u ++ r /\ sequence u /\ firstn (seq_len c) (c :: s) = u /\ length u = seq_len c.
Proof.
  unfold complete. rewrite andb_true_iff, Nat.leb_le. intros P [L K].
  assert (Q : 2 <= seq_len c).
  { unfold seq_len in *. destruct (between 192 223 c); [lia|]. destruct (between 224 239 c); [lia|]. destruct (between 240 247 c); lia. }
  exists (firstn (seq_len c) (c :: s)), (skipn (seq_len c) (c :: s)).
  split; [symmetry; apply firstn_skipn|]. split; [|split; [reflexivity|apply firstn_length_le, L]].
  exists c, (firstn (seq_len c - 1) s). cbn [length] in L. split; [|split].
  - destruct (seq_len c) as [|k] eqn:E; [lia|]. cbn [firstn]. f_equal. f_equal. lia.
  - rewrite firstn_length_le by lia. apply follow_len. lia.
  - apply conts_spec. exact K.
Qed.
Lemma general_seq u b r : sequence u -> general b (u ++ r) = true -> cont b -> u = [E2; "128"; b]%char.
Proof.
  intros S G K. destruct S as (c & t & -> & F & KT). pose proof G as G'. cbn [app] in G'. apply general_head in G'. subst c.
  apply follow_len in F as [F P]. change (seq_len E2) with 3 in F.
  destruct t as [|x [|y [|z t]]]; cbn [length] in F; try lia.
  unfold general in G. cbn [app at_ nth] in G. rewrite !andb_true_iff, !ceq_eq in G. destruct G as [[_ ->] ->]. reflexivity.
Qed.
Lemma cont_const n : (128 <= n <= 191)%N -> cont (ascii_of_N n).
Proof. intros H. unfold cont. rewrite code_of_N by lia. exact H. Qed.
Lemma mark_general u r : sequence u -> (em_en (u ++ r) || apostrophe (u ++ r) = true <-> mark u).
Proof.
  intros S. unfold em_en, apostrophe, mark. split.
  - rewrite !orb_true_iff. intros [[G|G]|[G|G]]; apply (general_seq _ _ _ S) in G; try (rewrite G; cbn; tauto);
      vm_compute; split; discriminate.
  - intros I. cbn [In] in I. destruct I as [<-|[<-|[<-|[<-|[]]]]]; reflexivity.
Qed.
Lemma mark_seq u : mark u -> sequence u.
Proof.
  intros I. unfold mark in I. cbn [In] in I.
  destruct I as [<-|[<-|[<-|[<-|[]]]]]; eexists _, _; (split; [reflexivity|]);
    (split; [right; left; cbn; split; [lia|reflexivity]|repeat (constructor; [vm_compute; split; discriminate|]); constructor]).
Qed.
Lemma general_mark b s : general b s = true -> exists r, s = [E2; "128"; b]%char ++ r \/ b = NUL.
Proof.
  unfold general. destruct s as [|x [|y [|z r]]]; cbn [at_ nth]; rewrite !andb_true_iff, !ceq_eq; intros [[H1 H2] H3].
  - discriminate.
  - discriminate.
  - exists []. right. congruence.
  - exists r. left. subst. reflexivity.
Qed.
Lemma marks_seq s : em_en s || apostrophe s = true -> exists u r, s = u ++ r /\ mark u.
Proof.
  unfold em_en, apostrophe. rewrite !orb_true_iff.
  intros [[G|G]|[G|G]]; destruct (general_mark _ _ G) as (r & [E|E]); try discriminate; eexists _, r;
    (split; [exact E|]); unfold mark; cbn; auto 6.
Qed.

(** ** Accents *)
Lemma accent_in b a : In (b, a) accents -> accent b = Some a.
Proof.
  intros I. cbn [accents In] in I.
  repeat (destruct I as [E|I]; [injection E as <- <-; reflexivity|]). destruct I.
Qed.
Lemma accent_cont b a : In (b, a) accents -> cont b.
Proof.
  intros I. cbn [accents In] in I.
  repeat (destruct I as [E|I]; [injection E as <- <-; vm_compute; split; discriminate|]). destruct I.
Qed.
Lemma in_accent b a : cont b -> accent b = Some a -> In (b, a) accents.
Proof.
  intros C E.
  assert (A : forallb (fun b => negb (continuation b) || match accent b with
     | Some a => existsb (fun p => ceq (fst p) b && ceq (snd p) a) accents | None => true end) all_bytes = true) by (vm_compute; reflexivity).
  rewrite forallb_forall in A. specialize (A b (all_bytes_complete b)). cbv beta in A.
  replace (continuation b) with true in A by (symmetry; apply cont_spec, C). rewrite E in A. cbn [negb orb] in A.
  apply existsb_exists in A as ([x y] & I & K). cbn [fst snd] in K. apply andb_true_iff in K as [K1 K2].
  apply ceq_eq in K1, K2. subst. exact I.
Qed.

(** ** GFM, one piece *)
Definition gshow (p : piece) (st : ids) : ids :=
  match p with
  | Letter c => put [tolower c] st
  | Gap _ => put_dash st
  | Emoji _ n => Ids false false (i_punct st) (put_name n (i_w st))
  | Accent _ a => put [a] st
  | Dropped _ => st
  end.
Lemma accent_seq b a : In (b, a) accents -> sequence ["195"%char; b].
Proof.
  intros I. exists "195"%char, [b]. split; [reflexivity|]. split; [left; cbn; split; [lia|reflexivity]|].
  constructor; [|constructor]. exact (accent_cont _ _ I).
Qed.
Lemma gfm_seq names u r st : sequence u -> ~ mark u ->
  ids_loop names Gfm (u ++ r) 0 st =
  ids_loop names Gfm r 0
    (match names u with
     | Some n => Ids false false (i_punct st) (put_name n (i_w st))
     | None => match (if ceq (at_ u 0) "195" then accent (at_ u 1) else None) with
               | Some a => put [a] st
               | None => st
               end
     end).
Proof.
  intros S NM. pose proof (seq_complete u S r) as (c & t & -> & _ & NC & SL & L2 & C & F).
  destruct (em_en ((c :: t) ++ r) || apostrophe ((c :: t) ++ r)) eqn:M.
  { exfalso. apply NM. apply (mark_general _ r); assumption. }
  apply orb_false_iff in M as [M1 M2]. cbn [app] in *. rewrite loop_cons. unfold id_step. rewrite NC, M1, M2. unfold gfm_step.
  cbv zeta. rewrite SL, C, F. replace (Nat.ltb 0 (length (c :: t))) with true by reflexivity. cbn [andb].
  replace (length (c :: t) - 1) with (length t) by (cbn [length]; lia).
  destruct (names (c :: t)) as [n|]; [apply skip_all|].
  assert (X : (if ceq c "195" then accent (at_ (c :: t ++ r) 1) else None) = (if ceq (at_ (c :: t) 0) "195" then accent (at_ (c :: t) 1) else None)).
  { cbn [at_ nth]. destruct t as [|d t]; [cbn in L2; lia|]. reflexivity. }
  rewrite X. destruct (if ceq (at_ (c :: t) 0) "195" then accent (at_ (c :: t) 1) else None) as [a|]; apply skip_all.
Qed.
Lemma marks_skipped names f u r st : f <> Mmd -> mark u -> ids_loop names f (u ++ r) 0 st = ids_loop names f r 0 st.
Proof.
  intros NF M. pose proof (seq_complete u (mark_seq _ M) r) as (c & t & E & _ & NC & SL & L2 & _ & _).
  pose proof (proj2 (mark_general u r (mark_seq _ M)) M) as G.
  assert (LT : length t = 2).
  { unfold mark in M. cbn [In] in M. destruct M as [M|[M|[M|[M|[]]]]]; rewrite <- M in E; injection E as <- <-; reflexivity. }
  rewrite E in *. cbn [app] in *. rewrite loop_cons. unfold id_step. rewrite NC.
  destruct (em_en (c :: t ++ r)).
  - rewrite <- LT. destruct f; [apply skip_all|congruence|apply skip_all].
  - cbn [orb] in G. rewrite G, <- LT. apply skip_all.
Qed.
Lemma gfm_piece names p r st : piece_ok names p r ->
  ids_loop names Gfm (write_piece p ++ r) 0 st = ids_loop names Gfm r 0 (gshow p st).
Proof.
  destruct p as [c|c|u n|b a|u]; cbn [piece_ok write_piece gshow].
  - intros H. assert (L : (code c < 128)%N).
    { destruct (N.ltb_spec (code c) 128) as [|G]; [assumption|]. rewrite high_not_alnum in H by exact G. discriminate. }
    cbn [app]. rewrite loop_cons. unfold id_step. destruct (low_seq c L) as [-> Z0]. destruct (low_general c r L) as [-> ->].
    unfold gfm_step. rewrite Z0, H. reflexivity.
  - intros H. cbn [app]. rewrite loop_cons. unfold id_step.
    destruct (low_seq c) as [-> Z0]; [destruct H as [-> | ->]; cbn; lia|].
    destruct (low_general c r) as [-> ->]; [destruct H as [-> | ->]; cbn; lia|].
    unfold gfm_step. rewrite Z0. destruct H as [-> | ->]; reflexivity.
  - intros (S & NM & E). rewrite (gfm_seq names u r st S NM), E. reflexivity.
  - intros (I & E). rewrite (gfm_seq names ["195"%char; b] r st (accent_seq _ _ I)).
    + rewrite E. cbn [at_ nth]. rewrite ceq_refl, (accent_in _ _ I). reflexivity.
    + intros M. unfold mark in M. cbn [In] in M. intuition discriminate.
  - intros [(c & -> & L & NA & N1 & N2)|[[S [M|[E NA]]]|(c & -> & H & NS)]].
    + cbn [app]. rewrite loop_cons. unfold id_step. destruct (low_seq c L) as [-> Z0]. destruct (low_general c r L) as [-> ->].
      unfold gfm_step. rewrite Z0, NA. apply ceq_neq in N1, N2. rewrite N1, N2. reflexivity.
    + apply marks_skipped; [discriminate|exact M].
    + destruct (in_dec (list_eq_dec ascii_dec) u [["226"; "128"; "148"]; ["226"; "128"; "147"]; ["226"; "128"; "153"]; ["226"; "128"; "152"]]%char) as [M|NM].
      { apply marks_skipped; [discriminate|exact M]. }
      rewrite (gfm_seq names u r st S NM), E.
      destruct (ceq (at_ u 0) "195") eqn:C; [|reflexivity]. destruct (accent (at_ u 1)) as [a|] eqn:A; [|reflexivity].
      exfalso. destruct S as (c & t & -> & F & K). cbn [at_ nth] in C. apply ceq_eq in C. subst c. apply follow_len in F as [F _].
      change (seq_len "195") with 2 in F. destruct t as [|b [|? t]]; cbn [length] in F; try lia. cbn [at_ nth] in A.
      apply (NA b a); [|reflexivity]. apply in_accent; [|exact A]. inversion K. assumption.
    + cbn [app]. rewrite loop_cons. unfold id_step. destruct (continuation c); [reflexivity|].
      destruct (em_en (c :: r) || apostrophe (c :: r)) eqn:M.
      { exfalso. apply marks_seq in M as (u & r' & E & M). exact (NS u r' (mark_seq _ M) E). }
      apply orb_false_iff in M as [-> ->]. unfold gfm_step. cbv zeta.
      destruct (Nat.ltb 0 (seq_len c)) eqn:P; cbn [andb].
      * destruct (complete (seq_len c) (c :: r)) eqn:C.
        { exfalso. apply Nat.ltb_lt in P. destruct (complete_seq c r P C) as (u & r' & E & S & _). exact (NS u r' S E). }
        rewrite (high_not_alnum c H), !high_not by (cbn; lia). reflexivity.
      * rewrite (high_not_alnum c H), !high_not by (cbn; lia). reflexivity.
Qed.
Lemma gfm_pieces names l : forall st, pieces_ok names l ->
  ids_loop names Gfm (write_pieces l) 0 st = Some (fold_left (fun st p => gshow p st) l st).
Proof.
  induction l as [|p l IH]; intros st; [reflexivity|]. cbn [pieces_ok]. intros [H1 H2].
  change (write_pieces (p :: l)) with (write_piece p ++ write_pieces l). rewrite gfm_piece by exact H1. apply IH, H2.
Qed.

(** ** GFM, the whole heading *)
Definition solid (w : str) : Prop := good_name w.
Lemma solid_app a b : solid a -> solid b -> solid (a ++ b).
Proof.
  intros (A1 & A2 & A3) (B1 & B2 & B3). split; [|split].
  - destruct a; [congruence|discriminate].
  - intros r E. destruct a as [|c a]; [congruence|]. injection E as E _. exact (A2 a (f_equal (fun x => x :: a) E)).
  - intros r E. destruct b as [|c b] using rev_ind; [congruence|]. rewrite app_assoc in E. apply app_inj_tail in E as [_ ->].
    exact (B3 b eq_refl).
Qed.
Lemma solid_one c : c <> "-"%char -> solid [c].
Proof.
  intros H. split; [discriminate|]. split; intros r E.
  - congruence.
  - destruct r as [|? [|]]; inversion E. congruence.
Qed.
Lemma tolower_not_dash c : isalnum c = true -> tolower c <> "-"%char.
Proof. intros H. apply slug_byte_lower in H. tauto. Qed.
Lemma accent_not_dash b a : In (b, a) accents -> a <> "-"%char.
Proof.
  intros I. cbn [accents In] in I.
  repeat (destruct I as [E|I]; [injection E as <- <-; discriminate|]). destruct I.
Qed.
Lemma text_solid names p r : good_names names -> piece_ok names p r -> text_of p = [] \/ solid (text_of p).
Proof.
  intros G H. destruct p as [c|c|u n|b a|u]; cbn [text_of piece_ok] in *; auto.
  - right. apply solid_one, tolower_not_dash, H.
  - right. exact (G u n (proj2 (proj2 H))).
  - right. apply solid_one. exact (accent_not_dash _ _ (proj1 H)).
Qed.

Lemma hyph_snoc ws w : ws <> [] -> hyphenated (ws ++ [w]) = hyphenated ws ++ "-"%char :: w.
Proof.
  intros H. induction ws as [|a ws IH]; [congruence|]. destruct ws as [|b ws]; [reflexivity|].
  change (hyphenated ((a :: b :: ws) ++ [w])) with (a ++ "-"%char :: hyphenated ((b :: ws) ++ [w])).
  rewrite IH by discriminate. change (hyphenated (a :: b :: ws)) with (a ++ "-"%char :: hyphenated (b :: ws)).
  rewrite <- app_assoc. reflexivity.
Qed.
Lemma hyph_grow ws w x : hyphenated (ws ++ [w ++ x]) = hyphenated (ws ++ [w]) ++ x.
Proof.
  destruct ws as [|a ws]; [reflexivity|]. rewrite !hyph_snoc by discriminate. rewrite <- app_assoc. reflexivity.
Qed.
Lemma hyph_solid ws : ws <> [] -> Forall solid ws -> solid (hyphenated ws).
Proof.
  intros NE H. induction ws as [|a ws IH]; [congruence|]. inversion H as [|? ? Ha Hw]; subst.
  destruct ws as [|b ws]; [exact Ha|].
  change (hyphenated (a :: b :: ws)) with (a ++ "-"%char :: hyphenated (b :: ws)).
  specialize (IH ltac:(discriminate) Hw). destruct Ha as (A1 & A2 & A3), IH as (B1 & B2 & B3). split; [|split].
  - destruct a; discriminate.
  - intros r E. destruct a as [|c a]; [congruence|]. injection E as E _. exact (A2 a (f_equal (fun x => x :: a) E)).
  - intros r E. revert B1 B3 E. generalize (hyphenated (b :: ws)). intros h B1 B3 E. destruct h as [|c h] using rev_ind; [congruence|].
    rewrite app_comm_cons, app_assoc in E. apply app_inj_tail in E as [_ ->]. exact (B3 h eq_refl).
Qed.

(** What has been written: the finished words [ws] and the current one [w]. *)
Definition raw (ws : list str) (w : str) : str :=
  match w, ws with
  | [], [] => []
  | [], _ => hyphenated ws ++ ["-"%char]
  | _, _ => hyphenated (ws ++ [w])
  end.
Definition state_of (ws : list str) (w : str) (st : ids) : Prop :=
  w_out (i_w st) = raw ws w /\ Forall solid ws /\ (w = [] \/ solid w) /\
  i_first st = negb (nonempty w || match ws with [] => false | _ => true end) /\
  i_dash st = negb (nonempty w) && match ws with [] => false | _ => true end.
Lemma raw_put ws w x : x <> [] -> raw ws (w ++ x) = raw ws w ++ x.
Proof.
  intros H. destruct w as [|c w].
  - cbn [app]. destruct x as [|d x]; [congruence|]. destruct ws as [|a ws]; [reflexivity|].
    unfold raw at 1. rewrite hyph_snoc by discriminate. unfold raw. rewrite <- app_assoc. reflexivity.
  - unfold raw. cbn [app]. apply (hyph_grow ws (c :: w) x).
Qed.
Lemma state_put ws w x st w' : state_of ws w st -> solid x -> w_out w' = w_out (i_w st) ++ x ->
  state_of ws (w ++ x) (Ids false false (i_punct st) w').
Proof.
  intros (O & SW & S & _ & _) X E. unfold state_of. cbn [i_w i_first i_dash]. pose proof (proj1 X) as NE.
  assert (N : nonempty (w ++ x) = true) by (destruct w; [destruct x; [congruence|reflexivity]|reflexivity]).
  rewrite E, O, raw_put by exact NE. rewrite N. repeat split; auto.
  right. destruct S as [-> |S]; [exact X|apply solid_app; assumption].
Qed.
Lemma w_store_out x w : w_out (w_store x w) = w_out w ++ x.
Proof. reflexivity. Qed.
Lemma put_name_out x w : w_out (put_name x w) = w_out w ++ x.
Proof. unfold put_name. destruct (Nat.ltb _ _); reflexivity. Qed.
Definition step_words (ws : list str) (w : str) (p : piece) : list str * str :=
  match p with
  | Gap _ => match w with [] => (ws, []) | _ => (ws ++ [w], []) end
  | _ => (ws, w ++ text_of p)
  end.
Lemma state_step names p r ws w st : good_names names -> piece_ok names p r -> state_of ws w st ->
  state_of (fst (step_words ws w p)) (snd (step_words ws w p)) (gshow p st).
Proof.
  intros G H S. pose proof (text_solid names p r G H) as T.
  destruct p as [c|c|u n|b a|u]; cbn [step_words text_of fst snd gshow] in *.
  - apply state_put; [exact S|destruct T; [discriminate|assumption]|reflexivity].
  - unfold put_dash. destruct S as (O & SW & Sw & F & D). rewrite F, D. destruct w as [|d w]; cbn [nonempty orb negb andb fst snd].
    + destruct ws as [|a ws]; cbn [negb andb fst snd]; (split; [exact O|]); auto.
    + split; [cbn [i_w]; rewrite w_store_out, O; unfold raw; destruct (ws ++ [d :: w]) eqn:E; [destruct ws; discriminate|reflexivity]|].
      split; [apply Forall_app; split; [exact SW|constructor; [destruct Sw; [discriminate|assumption]|constructor]]|].
      split; [auto|]. cbn [i_first i_dash]. destruct ws; auto.
  - apply state_put; [exact S| |apply put_name_out]. destruct T as [->|T]; [|exact T].
    exfalso. exact (proj1 (G u _ (proj2 (proj2 H))) eq_refl).
  - apply state_put; [exact S|destruct T; [discriminate|assumption]|reflexivity].
  - rewrite app_nil_r. exact S.
Qed.
Lemma words_step ws w p l : Forall solid ws ->
  ws ++ filter nonempty (words_from w (p :: l)) =
  fst (step_words ws w p) ++ filter nonempty (words_from (snd (step_words ws w p)) l).
Proof.
  intros _. destruct p as [c|c|u n|b a|u]; cbn [words_from step_words text_of fst snd]; try reflexivity.
  destruct w as [|d w]; cbn [filter nonempty fst snd]; [reflexivity|]. rewrite <- app_assoc. reflexivity.
Qed.
Lemma gfm_words names l : forall ws w st, good_names names -> pieces_ok names l -> state_of ws w st ->
  exists ws' w', state_of ws' w' (fold_left (fun st p => gshow p st) l st) /\
                 ws' ++ filter nonempty [w'] = ws ++ filter nonempty (words_from w l).
Proof.
  induction l as [|p l IH]; intros ws w st G H S; [exists ws, w; auto|].
  cbn [pieces_ok] in H. destruct H as [H1 H2]. pose proof (state_step names p _ ws w st G H1 S) as S'.
  cbn [fold_left]. destruct (IH _ _ _ G H2 S') as (ws' & w' & A & E). exists ws', w'. split; [exact A|].
  rewrite E. symmetry. apply words_step. destruct S; tauto.
Qed.

(** Trimming *)
Lemma drop_last_snoc f s c : f c = true -> drop_last f (s ++ [c]) = drop_last f s.
Proof. intros H. induction s as [|d s IH]; cbn [drop_last app]; [rewrite H; reflexivity|]. rewrite IH. reflexivity. Qed.
Lemma drop_last_keep f s c : f c = false -> drop_last f (s ++ [c]) = s ++ [c].
Proof.
  intros H. induction s as [|d s IH]; cbn [drop_last app]; [rewrite H; reflexivity|]. rewrite IH.
  destruct (s ++ [c]) eqn:E; [destruct s; discriminate|reflexivity].
Qed.
Lemma trim_solid s : solid s -> trim_id Gfm s = s /\ trim_id Gfm (s ++ ["-"%char]) = s.
Proof.
  intros (S1 & S2 & S3). unfold trim_id. destruct s as [|c s]; [congruence|].
  assert (N : dash c = false) by (apply ceq_neq; intros ->; exact (S2 s eq_refl)).
  cbn [app span]. rewrite N. cbn [snd]. rewrite app_comm_cons, drop_last_snoc by reflexivity.
  assert (K : drop_last dash (c :: s) = c :: s); [|auto].
  destruct (c :: s) as [|d t] using rev_ind; [congruence|]. apply drop_last_keep.
  apply ceq_neq. intros ->. exact (S3 t eq_refl).
Qed.
Lemma trim_raw ws w : Forall solid ws -> (w = [] \/ solid w) ->
  trim_id Gfm (raw ws w) = hyphenated (ws ++ filter nonempty [w]).
Proof.
  intros SW S. unfold raw. destruct w as [|c w]; cbn [filter nonempty].
  - rewrite app_nil_r. destruct ws as [|a ws]; [reflexivity|]. apply trim_solid, hyph_solid; [discriminate|exact SW].
  - apply trim_solid, hyph_solid; [destruct ws; discriminate|]. apply Forall_app. split; [exact SW|].
    constructor; [destruct S; [discriminate|assumption]|constructor].
Qed.
Lemma words_solid names l : good_names names -> pieces_ok names l -> Forall solid (words l).
Proof.
  intros G H. destruct (gfm_words names l [] [] (Ids false true false (w_new 0 0)) G H) as (ws & w & (_ & SW & S & _) & E).
  - repeat split; auto.
  - cbn [app] in E. fold (words l) in E. rewrite <- E. apply Forall_app. split; [exact SW|].
    destruct w; cbn [filter nonempty]; [constructor|]. constructor; [destruct S; [discriminate|assumption]|constructor].
Qed.
Lemma gfm_out names l : good_names names -> pieces_ok names l -> forall n,
  let st := fold_left (fun st p => gshow p st) l (Ids false true false (w_new n 0)) in
  match trim_id Gfm (w_out (i_w st)) with [] => B "header" | id => id end = gfm_id l.
Proof.
  intros G H n. cbv zeta.
  destruct (gfm_words names l [] [] (Ids false true false (w_new n 0)) G H) as (ws & w & (O & SW & S & _) & E).
  { repeat split; auto. }
  cbn [app] in E. fold (words l) in E. rewrite O, (trim_raw ws w SW S), E. unfold gfm_id.
  pose proof (words_solid names l G H) as A. destruct (words l) as [|a k] eqn:K; [reflexivity|].
  destruct (hyphenated (a :: k)) eqn:Z0; [|reflexivity].
  destruct (hyph_solid (a :: k) ltac:(discriminate) A) as [Q _]. congruence.
Qed.

(** Memory *)
Lemma gfm_fits l : forall st, fits (i_w st) -> length (w_out (i_w st)) + sizes l < w_cap (i_w st) ->
  let st' := fold_left (fun st p => gshow p st) l st in
  fits (i_w st') /\ length (w_out (i_w st')) < w_cap (i_w st').
Proof.
  induction l as [|p l IH]; intros st F L; [cbn [sizes fold_right] in L; cbn; split; [exact F|lia]|].
  cbn [fold_left]. change (sizes (p :: l)) with (size p + sizes l) in L. apply IH.
  - destruct p as [c|c|u n|b a|u]; cbn [gshow put i_w size text_of length] in *; auto.
    + apply store_fits; cbn [length]; auto; lia.
    + unfold put_dash. destruct (_ && _); cbn [i_w]; auto. apply store_fits; cbn [length]; auto; lia.
    + unfold put_name. replace (Nat.ltb _ _) with false by (symmetry; apply Nat.ltb_ge; lia). apply store_fits; auto; lia.
    + apply store_fits; cbn [length]; auto; lia.
  - destruct p as [c|c|u n|b a|u]; cbn [gshow put i_w size text_of length] in *; try lia.
    + cbn [w_store w_out w_cap]. rewrite app_length. cbn [length]. lia.
    + unfold put_dash. destruct (_ && _); cbn [i_w]; [|lia]. cbn [w_store w_out w_cap]. rewrite app_length. cbn [length]. lia.
    + unfold put_name. replace (Nat.ltb _ _) with false by (symmetry; apply Nat.ltb_ge; lia).
      cbn [w_store w_out w_cap]. rewrite app_length. lia.
    + cbn [w_store w_out w_cap]. rewrite app_length. cbn [length]. lia.
Qed.
Lemma w_term_out w : w_out (w_term w) = w_out w.
Proof. reflexivity. Qed.
Lemma gfm_ok names l : good_names names -> pieces_ok names l ->
  exists b, header_id names Gfm (write_pieces l) = Some (gfm_id l, b) /\
            (sizes l <= 3 * length (write_pieces l) -> b = false).
Proof.
  intros G H. unfold header_id. rewrite gfm_pieces by exact H. eexists. split.
  - rewrite w_term_out. rewrite (gfm_out names l G H). reflexivity.
  - intros L. destruct (gfm_fits l (Ids false true false (w_new (length (write_pieces l) * 3 + 1) 0))) as [F K].
    + apply new_fits.
    + cbn [i_w w_new w_out w_cap length]. lia.
    + exact (proj1 (term_fits _ F K)).
Qed.

(** Every text *)
Lemma every_heading names n : forall s, length s <= n -> exists l, pieces_ok names l /\ write_pieces l = s.
Proof.
  induction n as [|n IH]; intros s L.
  { destruct s; [exists []; split; [exact I|reflexivity]|cbn in L; lia]. }
  destruct s as [|c s]; [exists []; split; [exact I|reflexivity]|].
  assert (ONE : forall p, write_piece p = [c] -> piece_ok names p s -> exists l, pieces_ok names l /\ write_pieces l = c :: s).
  { intros p E H. destruct (IH s ltac:(cbn in L; lia)) as (l & A & W). exists (p :: l). cbn [pieces_ok]. rewrite W.
    split; [auto|]. change (write_piece p ++ write_pieces l = c :: s). rewrite E, W. reflexivity. }
  destruct (N.ltb_spec (code c) 128) as [LO|HI].
  - destruct (isalnum c) eqn:A; [apply (ONE (Letter c)); auto|].
    destruct (ceq c SP) eqn:E1; [apply ceq_eq in E1; apply (ONE (Gap c)); [reflexivity|left; exact E1]|].
    destruct (ceq c "-") eqn:E2; [apply ceq_eq in E2; apply (ONE (Gap c)); [reflexivity|right; exact E2]|].
    apply (ONE (Dropped [c])); [reflexivity|]. left. exists c. apply ceq_neq in E1, E2. auto.
  - destruct (Nat.ltb 0 (seq_len c) && complete (seq_len c) (c :: s)) eqn:Q.
    + apply andb_true_iff in Q as [P C]. apply Nat.ltb_lt in P. destruct (complete_seq c s P C) as (u & r & E & S & _ & _).
      assert (SEQ : forall p, write_piece p = u -> piece_ok names p r -> exists l, pieces_ok names l /\ write_pieces l = c :: s).
      { intros p W H. destruct (IH r) as (l & A & WL).
        - apply (f_equal (@length _)) in E. rewrite app_length in E. destruct S as (? & ? & -> & _). cbn [length] in *. lia.
        - exists (p :: l). cbn [pieces_ok]. rewrite WL. split; [auto|].
          change (write_piece p ++ write_pieces l = c :: s). rewrite W, WL. symmetry. exact E. }
      destruct (in_dec (list_eq_dec ascii_dec) u [["226"; "128"; "148"]; ["226"; "128"; "147"]; ["226"; "128"; "153"]; ["226"; "128"; "152"]]%char) as [M|NM].
      { apply (SEQ (Dropped u)); [reflexivity|]. right. left. auto. }
      destruct (names u) as [m|] eqn:N.
      { apply (SEQ (Emoji u m)); [reflexivity|]. cbn. auto. }
      destruct (in_dec (list_eq_dec ascii_dec) u (map (fun p => ["195"%char; fst p]) accents)) as [A|NA].
      * apply in_map_iff in A as ([b a] & <- & A). apply (SEQ (Accent b a)); [reflexivity|]. cbn. auto.
      * apply (SEQ (Dropped u)); [reflexivity|]. right. left. split; [exact S|]. right. split; [exact N|].
        intros b a A ->. apply NA. apply in_map_iff. exists (b, a). auto.
    + apply (ONE (Dropped [c])); [reflexivity|]. right. right. exists c. split; [reflexivity|]. split; [exact HI|].
      intros v r S E. pose proof (seq_complete v S r) as (d & t & -> & _ & _ & SL & L2 & C & _). rewrite <- E in C.
      injection E as <- _. rewrite SL, C in Q. replace (Nat.ltb 0 (length (c :: t))) with true in Q by reflexivity. discriminate.
Qed.


(** ** MultiMarkdown *)
Lemma quote_apostrophe u r : sequence u -> apostrophe (u ++ r) = quote_mark u.
Proof.
  intros S. unfold quote_mark. destruct (in_dec _ _ _) as [I|NI].
  - cbn [In] in I. destruct I as [<-|[<-|[]]]; reflexivity.
  - destruct (apostrophe (u ++ r)) eqn:A; [|reflexivity]. exfalso. apply NI.
    unfold apostrophe in A. apply orb_true_iff in A as [A|A]; apply (general_seq _ _ _ S) in A; try (rewrite A; cbn; tauto);
      vm_compute; split; discriminate.
Qed.
Lemma em_three u r : sequence u -> em_en (u ++ r) = true ->
  exists a b c, u = [a; b; c] /\ continuation a = false /\ firstn 3 (u ++ r) = u /\ quote_mark u = false.
Proof.
  intros S A. unfold em_en in A. apply orb_true_iff in A as [A|A]; apply (general_seq _ _ _ S) in A;
    try (subst u; eexists _, _, _; split; [reflexivity|]; split; [reflexivity|]; split; reflexivity);
    vm_compute; split; discriminate.
Qed.
Lemma apos_three u r : sequence u -> apostrophe (u ++ r) = true ->
  exists a b c, u = [a; b; c] /\ continuation a = false.
Proof.
  intros S A. unfold apostrophe in A. apply orb_true_iff in A as [A|A]; apply (general_seq _ _ _ S) in A;
    try (subst u; eexists _, _, _; split; reflexivity);
    vm_compute; split; discriminate.
Qed.
Lemma tolower_dash : tolower "-" = "-"%char.
Proof. reflexivity. Qed.
Lemma w_store_nil w : w_store [] w = w.
Proof. destruct w as [a b c d]. unfold w_store. cbn [w_cap w_out w_rem w_oob]. rewrite app_nil_r, orb_false_r. reflexivity. Qed.
Lemma low_alnum c : isalnum c = true -> (code c < 128)%N.
Proof.
  intros H. destruct (N.ltb_spec (code c) 128) as [|G]; [assumption|]. rewrite high_not_alnum in H by exact G. discriminate.
Qed.
Lemma mmd_char names x r st : uchar_ok x -> exists st',
  ids_loop names Mmd (write_uchar x ++ r) 0 st = ids_loop names Mmd r 0 st' /\
  i_w st' = w_store (mmd_text x) (i_w st).
Proof.
  destruct x as [c|u]; cbn [uchar_ok write_uchar mmd_text].
  - intros [L _]. cbn [app]. rewrite loop_cons. unfold id_step. destruct (low_seq c L) as [-> Z0]. destruct (low_general c r L) as [-> ->].
    unfold mmd_step. destruct (ceq c "-") eqn:D.
    + apply ceq_eq in D. subst c. rewrite orb_true_r. eexists. split; reflexivity.
    + rewrite orb_false_r. destruct (isalnum c) eqn:A; [eexists; split; reflexivity|].
      replace (N.ltb (code c) 128) with true by (symmetry; apply N.ltb_lt, L). exists st. split; [reflexivity|symmetry; apply w_store_nil].
  - intros S. pose proof (quote_apostrophe u r S) as Q. rewrite <- Q.
    pose proof (seq_complete u S r) as (c & t & -> & H & NC & SL & L2 & _ & F).
    destruct (em_en ((c :: t) ++ r)) eqn:EM.
    + destruct (em_three _ r S EM) as (a & b & d & E & _ & F3 & NQ). rewrite Q, NQ. injection E as -> ->. cbn [app] in *.
      rewrite loop_cons. unfold id_step. rewrite NC, EM, F3. eexists. split; reflexivity.
    + destruct (apostrophe ((c :: t) ++ r)) eqn:AP.
      * destruct (apos_three _ r S AP) as (a & b & d & E & _). injection E as -> ->. cbn [app] in *.
        rewrite loop_cons. unfold id_step. rewrite NC, EM, AP. exists st. split; [reflexivity|symmetry; apply w_store_nil].
      * cbn [app] in *. rewrite loop_cons. unfold id_step. rewrite NC, EM, AP. unfold mmd_step.
        rewrite high_not by (cbn; lia). rewrite high_not_alnum by lia.
        replace (N.ltb (code c) 128) with false by (symmetry; apply N.ltb_ge; lia). rewrite SL. cbn [length].
        replace (Datatypes.S (length t) - 1) with (length t) by lia. cbn [length] in F. rewrite F, skip_all. eexists. split; reflexivity.
Qed.
Lemma mmd_chars names l : forall st r, Forall uchar_ok l -> exists st',
  ids_loop names Mmd (write_uchars l ++ r) 0 st = ids_loop names Mmd r 0 st' /\
  w_out (i_w st') = w_out (i_w st) ++ concat (map mmd_text l) /\ w_cap (i_w st') = w_cap (i_w st) /\
  (fits (i_w st) -> length (w_out (i_w st)) + length (write_uchars l) <= w_cap (i_w st) -> fits (i_w st')).
Proof.
  induction l as [|x l IH]; intros st r H.
  - exists st. rewrite app_nil_r. auto.
  - inversion H as [|? ? Hx Hl]; subst. change (write_uchars (x :: l)) with (write_uchar x ++ write_uchars l).
    rewrite <- app_assoc. destruct (mmd_char names x (write_uchars l ++ r) st Hx) as (s1 & E1 & W1). rewrite E1.
    destruct (IH s1 r Hl) as (s2 & E2 & O2 & C2 & F2). exists s2. split; [exact E2|].
    cbn [map concat]. rewrite O2, W1. cbn [w_store w_out w_cap]. split; [rewrite app_assoc; reflexivity|].
    split; [rewrite C2, W1; reflexivity|]. intros F L. rewrite app_length in L.
    assert (T : length (mmd_text x) <= length (write_uchar x)).
    { destruct x as [c|u]; cbn [mmd_text write_uchar]; [destruct (_ || _); cbn; lia|destruct (quote_mark u); cbn; lia]. }
    apply F2; rewrite W1.
    + apply store_fits; [exact F|lia].
    + cbn [w_store w_out w_cap]. rewrite app_length. lia.
Qed.
Lemma mmd_ok names l : Forall uchar_ok l ->
  header_id names Mmd (write_uchars l) = Some (or_header (concat (map mmd_text l)), false).
Proof.
  intros H. unfold header_id. destruct (mmd_chars names l (Ids false true false (w_new (length (write_uchars l) * 3 + 1) 0)) [] H) as (st & E & O & C & F).
  rewrite app_nil_r in E. rewrite E. cbn [ids_loop]. cbn [i_w w_new w_out app w_cap] in *. rewrite w_term_out, O.
  replace (w_oob (w_term (i_w st))) with false; [unfold or_header; cbn [trim_id]; match goal with |- context [match ?x with [] => _ | _ => _ end] => destruct x end; reflexivity|]. symmetry. apply term_fits; [apply F; [apply new_fits|cbn; lia]|].
  rewrite O, C. assert (length (concat (map mmd_text l)) <= length (write_uchars l)); [|lia]. clear.
  induction l as [|x l IH]; [cbn; lia|]. change (write_uchars (x :: l)) with (write_uchar x ++ write_uchars l). cbn [map concat].
  rewrite !app_length. assert (length (mmd_text x) <= length (write_uchar x)); [|lia].
  destruct x as [c|u]; cbn [mmd_text write_uchar]; [destruct (_ || _); cbn; lia|destruct (quote_mark u); cbn; lia].
Qed.

(** ** Kramdown *)
Lemma uchar_gap x : uchar_ok x -> forallb gap4 (write_uchar x) = blank x.
Proof.
  destruct x as [c|u]; cbn [uchar_ok write_uchar blank].
  - intros _. cbn [forallb existsb]. unfold gap4. rewrite andb_true_r, orb_false_r, !orb_assoc. reflexivity.
  - intros S. destruct S as (c & t & -> & F & _). apply lead_high in F. cbn [forallb]. unfold gap4.
    rewrite !high_not by (cbn; lia). reflexivity.
Qed.
Lemma uchars_gap l : Forall uchar_ok l -> forallb gap4 (write_uchars l) = forallb blank l.
Proof.
  induction 1 as [|x l Hx Hl IH]; [reflexivity|]. change (write_uchars (x :: l)) with (write_uchar x ++ write_uchars l).
  rewrite forallb_app, uchar_gap by exact Hx. cbn [forallb]. rewrite IH. reflexivity.
Qed.
Lemma span_rest f s : match snd (span f s) with [] => true | _ => false end = forallb f s.
Proof.
  induction s as [|c s IH]; [reflexivity|]. cbn [span forallb]. destruct (f c); [|reflexivity].
  destruct (span f s). exact IH.
Qed.
Lemma kram_char names before x l st : uchar_ok x -> Forall uchar_ok l ->
  i_punct st = after_punctuation before (x :: l) -> exists st',
  ids_loop names Kramdown (write_uchar x ++ write_uchars l) 0 st = ids_loop names Kramdown (write_uchars l) 0 st' /\
  i_w st' = w_store (kramdown_char before x l) (i_w st) /\
  i_punct st' = after_punctuation (x :: before) l.
Proof.
  destruct x as [c|u]; cbn [uchar_ok write_uchar kramdown_char].
  - intros [L _] HL P. cbn [app]. rewrite loop_cons. unfold id_step. destruct (low_seq c L) as [-> Z0].
    destruct (low_general c (write_uchars l) L) as [-> ->]. unfold kramdown_step. cbn [skipn]. rewrite span_rest, (uchars_gap l HL).
    rewrite <- P. cbn [after_punctuation]. unfold punctuation. destruct (ceq c "-") eqn:D.
    + apply ceq_eq in D. subst c. rewrite orb_true_r. eexists. split; [reflexivity|]. split; reflexivity.
    + rewrite !orb_false_r. destruct (isalnum c) eqn:A; [eexists; split; [reflexivity|]; split; reflexivity|].
      destruct (ceq c SP) eqn:S.
      * destruct (i_punct st); [|eexists; split; [reflexivity|]; split; reflexivity].
        eexists. split; [reflexivity|]. split; [symmetry; apply w_store_nil|reflexivity].
      * replace (N.ltb (code c) 128) with true by (symmetry; apply N.ltb_lt, L).
        destruct (forallb blank l); [|eexists; split; [reflexivity|]; split; reflexivity].
        eexists. split; [reflexivity|]. split; [symmetry; apply w_store_nil|reflexivity].
  - intros S HL P. exists st. rewrite w_store_nil. split; [|auto].
    destruct (in_dec (list_eq_dec ascii_dec) u [["226"; "128"; "148"]; ["226"; "128"; "147"]; ["226"; "128"; "153"]; ["226"; "128"; "152"]]%char) as [M|NM].
    { apply marks_skipped; [discriminate|exact M]. }
    destruct (em_en (u ++ write_uchars l) || apostrophe (u ++ write_uchars l)) eqn:G.
    { apply mark_general in G; [contradiction|exact S]. }
    apply orb_false_iff in G as [G1 G2]. pose proof (seq_complete u S (write_uchars l)) as (c & t & -> & H & NC & SL & L2 & _ & _).
    cbn [app] in *. rewrite loop_cons. unfold id_step. rewrite NC, G1, G2. unfold kramdown_step.
    rewrite !high_not by (cbn; lia). rewrite high_not_alnum by lia.
    replace (N.ltb (code c) 128) with false by (symmetry; apply N.ltb_ge; lia). rewrite SL. cbn [length].
    replace (Datatypes.S (length t) - 1) with (length t) by lia. apply skip_all.
Qed.
Lemma kram_length before x l : length (kramdown_char before x l) <= length (write_uchar x) \/ write_uchar x = [].
Proof.
  destruct x as [c|u]; cbn [kramdown_char write_uchar]; [left|left; cbn; lia].
  destruct (_ || _); [cbn; lia|]. destruct (ceq c SP); [destruct (after_punctuation _ _); cbn; lia|]. destruct (forallb _ _); cbn; lia.
Qed.
Lemma kram_chars names l : forall before st, Forall uchar_ok l -> i_punct st = after_punctuation before l -> exists st',
  ids_loop names Kramdown (write_uchars l) 0 st = Some st' /\
  w_out (i_w st') = w_out (i_w st) ++ kramdown_text before l /\ w_cap (i_w st') = w_cap (i_w st) /\
  length (kramdown_text before l) <= length (write_uchars l) /\
  (fits (i_w st) -> length (w_out (i_w st)) + length (write_uchars l) <= w_cap (i_w st) -> fits (i_w st')).
Proof.
  induction l as [|x l IH]; intros before st H P.
  - exists st. cbn [kramdown_text]. rewrite app_nil_r. repeat split; auto; [apply H0|apply H0].
  - inversion H as [|? ? Hx Hl]; subst. change (write_uchars (x :: l)) with (write_uchar x ++ write_uchars l).
    destruct (kram_char names before x l st Hx Hl P) as (s1 & E1 & W1 & P1). rewrite E1.
    destruct (IH (x :: before) s1 Hl P1) as (s2 & E2 & O2 & C2 & L2 & F2). exists s2. split; [exact E2|].
    cbn [kramdown_text]. rewrite O2, W1. cbn [w_store w_out w_cap]. split; [rewrite app_assoc; reflexivity|].
    split; [rewrite C2, W1; reflexivity|].
    assert (T : length (kramdown_char before x l) <= length (write_uchar x)).
    { destruct (kram_length before x l) as [T|T]; [exact T|]. destruct x as [c|u]; cbn [write_uchar] in T; [discriminate|]. cbn. lia. }
    split; [rewrite !app_length; lia|]. intros F L. rewrite app_length in L.
    apply F2; rewrite W1.
    + apply store_fits; [exact F|lia].
    + cbn [w_store w_out w_cap]. rewrite app_length. lia.
Qed.
Lemma trim_first s : snd (span dash s) = no_dashes_first s.
Proof.
  induction s as [|c s IH]; [reflexivity|]. cbn [span no_dashes_first]. unfold dash at 1. destruct (ceq c "-"); [|reflexivity].
  destruct (span dash s). exact IH.
Qed.
Lemma kram_ok names l : Forall uchar_ok l ->
  header_id names Kramdown (write_uchars l) = Some (or_header (no_dashes_first (kramdown_text [] l)), false).
Proof.
  intros H. unfold header_id.
  destruct (kram_chars names l [] (Ids false true false (w_new (length (write_uchars l) * 3 + 1) 0)) H eq_refl) as (st & E & O & C & L & F).
  rewrite E. cbn [i_w w_new w_out app w_cap] in *. rewrite w_term_out, O. cbn [trim_id]. rewrite trim_first.
  replace (w_oob (w_term (i_w st))) with false; [unfold or_header; cbn [trim_id]; match goal with |- context [match ?x with [] => _ | _ => _ end] => destruct x end; reflexivity|]. symmetry. apply term_fits; [apply F; [apply new_fits|cbn; lia]|].
  rewrite O, C. lia.
Qed.
Lemma kram_prefix names l : forall st r, Forall uchar_ok l -> exists st',
  ids_loop names Kramdown (write_uchars l ++ r) 0 st = ids_loop names Kramdown r 0 st'.
Proof.
  induction l as [|x l IH]; intros st r H; [exists st; reflexivity|].
  inversion H as [|? ? Hx Hl]; subst. change (write_uchars (x :: l)) with (write_uchar x ++ write_uchars l). rewrite <- app_assoc.
  assert (A : exists s1, ids_loop names Kramdown (write_uchar x ++ write_uchars l ++ r) 0 st = ids_loop names Kramdown (write_uchars l ++ r) 0 s1).
  { set (y := write_uchars l ++ r). destruct x as [c|u]; cbn [uchar_ok write_uchar] in *.
    - destruct Hx as [L _]. cbn [app]. rewrite loop_cons. unfold id_step. destruct (low_seq c L) as [-> Z0].
      destruct (low_general c y L) as [-> ->]. unfold kramdown_step. rewrite Z0.
      repeat match goal with |- context [if ?b then _ else _] => destruct b end; eexists; reflexivity.
    - destruct (in_dec (list_eq_dec ascii_dec) u [["226"; "128"; "148"]; ["226"; "128"; "147"]; ["226"; "128"; "153"]; ["226"; "128"; "152"]]%char) as [M|NM].
      { exists st. apply marks_skipped; [discriminate|exact M]. }
      destruct (em_en (u ++ y) || apostrophe (u ++ y)) eqn:G.
      { apply mark_general in G; [contradiction|exact Hx]. }
      apply orb_false_iff in G as [G1 G2]. pose proof (seq_complete u Hx y) as (c & t & -> & HH & NC & SL & L2 & _ & _).
      cbn [app] in *. rewrite loop_cons. unfold id_step. rewrite NC, G1, G2. unfold kramdown_step.
      rewrite !high_not by (cbn; lia). rewrite high_not_alnum by lia.
      replace (N.ltb (code c) 128) with false by (symmetry; apply N.ltb_ge; lia). rewrite SL. cbn [length].
      replace (Datatypes.S (length t) - 1) with (length t) by lia. exists st. apply skip_all. }
  destruct A as [s1 E]. rewrite E. apply IH, Hl.
Qed.

(** A sequence cut off at the end *)
Lemma skip_past names f t : forall k st, length t < k -> ids_loop names f t k st = None.
Proof.
  induction t as [|c t IH]; intros k st L; destruct k as [|k]; cbn [length] in L; try lia; [reflexivity|].
  apply IH. lia.
Qed.
Lemma general_short b c t : length t < 2 -> b <> NUL -> general b (c :: t) = false.
Proof.
  intros L N. unfold general. destruct t as [|x [|y t]]; cbn [length] in L; try lia; cbn [at_ nth];
    rewrite ?andb_false_r; try reflexivity; replace (ceq NUL b) with false by (symmetry; apply ceq_neq; congruence); apply andb_false_r.
Qed.
Lemma cut_off names f c t k st : f <> Gfm -> follow c k -> length t < k -> ids_loop names f (c :: t) 0 st = None.
Proof.
  intros NG F L. pose proof (lead_high _ _ F) as H. assert (NC : continuation c = false).
  { destruct (continuation c) eqn:E; [|reflexivity]. apply cont_spec in E. unfold cont in E. lia. }
  assert (G : forall b, b <> NUL -> general b (c :: t) = false).
  { intros b N. destruct (general b (c :: t)) eqn:E; [|reflexivity]. pose proof E as E'. apply general_head in E'. subst c.
    apply follow_len in F as [F _]. change (seq_len E2) with 3 in F. rewrite general_short in E; [discriminate|lia|exact N]. }
  apply follow_len in F as [F P]. rewrite loop_cons. unfold id_step, em_en, apostrophe. rewrite NC, !G by discriminate. cbn [orb].
  destruct f; [congruence| |].
  - unfold mmd_step. rewrite high_not by (cbn; lia). rewrite high_not_alnum by lia.
    replace (N.ltb (code c) 128) with false by (symmetry; apply N.ltb_ge; lia). rewrite F. apply skip_past. lia.
  - unfold kramdown_step. rewrite !high_not by (cbn; lia). rewrite high_not_alnum by lia.
    replace (N.ltb (code c) 128) with false by (symmetry; apply N.ltb_ge; lia). rewrite F. apply skip_past. lia.
Qed.
Lemma cut_off_ok names f l c t k : f <> Gfm -> Forall uchar_ok l -> follow c k -> length t < k ->
  header_id names f (write_uchars l ++ c :: t) = None.
Proof.
  intros NG H F L. unfold header_id. set (st0 := Ids _ _ _ _).
  assert (A : exists st, ids_loop names f (write_uchars l ++ c :: t) 0 st0 = ids_loop names f (c :: t) 0 st).
  { destruct f; [congruence| |].
    - destruct (mmd_chars names l st0 (c :: t) H) as (st & E & _). exists st. exact E.
    - apply kram_prefix, H. }
  destruct A as [st E]. rewrite E, (cut_off names f c t k st NG F L). reflexivity.
Qed.

(** Bytes of GFM ids *)
Lemma id_byte_lower c : isalnum c = true -> id_byte (tolower c).
Proof.
  intros H. assert (A : forallb (fun c => negb (isalnum c) || existsb (ceq (tolower c)) (B "abcdefghijklmnopqrstuvwxyz0123456789-_")) all_bytes = true) by (vm_compute; reflexivity).
  rewrite forallb_forall in A. specialize (A c (all_bytes_complete c)). cbv beta in A. rewrite H in A. cbn [negb orb] in A.
  apply existsb_exists in A as (d & I & E). apply ceq_eq in E. unfold id_byte. rewrite E. exact I.
Qed.
Lemma id_byte_accent b a : In (b, a) accents -> id_byte a.
Proof.
  intros I. cbn [accents In] in I.
  repeat (destruct I as [E|I]; [injection E as <- <-; unfold id_byte; vm_compute; tauto|]). destruct I.
Qed.
Lemma words_bytes names l : forall w, plain_names names -> pieces_ok names l -> Forall id_byte w ->
  Forall (Forall id_byte) (words_from w l).
Proof.
  induction l as [|p l IH]; intros w P H F; [repeat constructor; exact F|]. cbn [pieces_ok] in H. destruct H as [H1 H2].
  destruct p as [c|c|u n|b a|u]; cbn [words_from text_of piece_ok] in *;
    try (apply IH; [exact P|exact H2|apply Forall_app; split; [exact F|]]).
  - constructor; [apply id_byte_lower, H1|constructor].
  - constructor; [exact F|]. apply IH; auto.
  - exact (P _ _ (proj2 (proj2 H1))).
  - constructor; [exact (id_byte_accent _ _ (proj1 H1))|constructor].
  - constructor.
Qed.
Lemma hyph_bytes ws : Forall (Forall id_byte) ws -> Forall id_byte (hyphenated ws).
Proof.
  induction 1 as [|w ws Hw Hs IH]; [constructor|]. destruct ws as [|v ws]; [exact Hw|].
  change (hyphenated (w :: v :: ws)) with (w ++ "-"%char :: hyphenated (v :: ws)). apply Forall_app. split; [exact Hw|].
  constructor; [unfold id_byte; vm_compute; tauto|exact IH].
Qed.
Lemma gfm_bytes names l : plain_names names -> pieces_ok names l -> Forall id_byte (gfm_id l).
Proof.
  intros P H. unfold gfm_id. pose proof (words_bytes names l [] P H (Forall_nil _)) as A.
  assert (Q : Forall (Forall id_byte) (words l)).
  { apply Forall_forall. intros x I. apply filter_In in I as [I _]. rewrite Forall_forall in A. exact (A x I). }
  destruct (words l); [repeat (constructor; [unfold id_byte; vm_compute; tauto|]); constructor|]. apply hyph_bytes, Q.
Qed.
