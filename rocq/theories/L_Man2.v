(** Lemmas about the man page output: fragments of HTML, definition lists, the title. *)
From Verif Require Import Base BaseL Dec L_Highlight M_Md S_Md L_Md M_Man S_Man L_Man.

Definition html (l : list piece) : str := concat (map html_of l).
Definition put_piece (b : str) (p : piece) : str :=
  match p with Plain s => add_roff b s | Ent c => b ++ [c] | Tag t => b ++ tag_roff (B "<" ++ t ++ B ">") end.
Lemma fragment_eq fuel b s : fragment (S fuel) b s =
  match s with
  | [] => Some b
  | c :: _ =>
      let text := let (x, r) := span neither s in fragment fuel (add_roff b x) r in
      let other := if ceq c "&"%char then match entity s with Some (x, n) => fragment fuel (b ++ x) (skipn n s) | None => text end else text in
      if ceq c "<"%char then
        match strchr ">"%char s with
        | Some k => fragment fuel (b ++ tag_roff (firstn (k + 1) s)) (skipn (k + 1) s)
        | None => other
        end
      else other
  end.
Proof. destruct s; reflexivity. Qed.
Lemma strchr_at c a b : ~ In c a -> strchr c (a ++ c :: b) = Some (length a).
Proof.
  induction a as [|d a IH]; intros N; cbn [app strchr length].
  - rewrite ceq_refl. reflexivity.
  - assert (D : ceq c d = false) by (apply ceq_neq; intros ->; apply N; left; reflexivity).
    rewrite D, IH; [reflexivity|]. intros I. apply N. right. exact I.
Qed.
Lemma fragment_tag fuel b t r : ~ In ">"%char t -> fragment (S fuel) b (B "<" ++ t ++ B ">" ++ r) = fragment fuel (b ++ tag_roff (B "<" ++ t ++ B ">")) r.
Proof.
  intros N. rewrite fragment_eq. change (B "<" ++ t ++ B ">" ++ r) with ("<"%char :: (t ++ ">"%char :: r)). cbv beta iota zeta.
  change (ceq "<" "<") with true. cbv iota.
  replace (strchr ">"%char ("<"%char :: (t ++ ">"%char :: r))) with (Some (S (length t))).
  - cbn [Nat.add firstn skipn]. rewrite Nat.add_comm. cbn [Nat.add].
    replace (firstn (S (length t)) (t ++ ">"%char :: r)) with (t ++ B ">").
    + replace (skipn (S (length t)) (t ++ ">"%char :: r)) with r; [reflexivity|].
      rewrite skipn_app, skipn_all2 by lia. replace (S (length t) - length t) with 1 by lia. reflexivity.
    + rewrite firstn_app, firstn_all2 by lia. replace (S (length t) - length t) with 1 by lia. reflexivity.
  - symmetry. exact (strchr_at ">"%char ("<"%char :: t) r ltac:(intros [E|J]; [discriminate E|exact (N J)])).
Qed.
Lemma fragment_ent fuel b c r : In c ["<"; ">"; "&"; DQ; SQ]%char ->
  fragment (S fuel) b (html_of (Ent c) ++ r) = fragment fuel (b ++ [c]) r.
Proof. intros I. rewrite fragment_eq. cbn in I. repeat (destruct I as [<-|I]; [reflexivity|]). contradiction. Qed.
Lemma neither_no s : ~ In "<"%char s -> ~ In "&"%char s -> forallb neither s = true.
Proof.
  intros H1 H2. apply forallb_forall. intros c I. unfold neither. destruct (ceq c "<") eqn:C1; [apply ceqs in C1 as ->; contradiction|].
  destruct (ceq c "&") eqn:C2; [apply ceqs in C2 as ->; contradiction|]. reflexivity.
Qed.
Lemma span_rest f s r : forallb f s = true -> (forall c r', r = c :: r' -> f c = false) -> span f (s ++ r) = (s, r).
Proof.
  intros F N. induction s as [|c s IH]; cbn [app span].
  - destruct r as [|c r]; [reflexivity|]. cbn [span]. rewrite (N c r eq_refl). reflexivity.
  - cbn in F. apply andb_true_iff in F as [F1 F2]. rewrite F1, IH by exact F2. reflexivity.
Qed.
Lemma fragment_plain fuel b s r : s <> [] -> ~ In "<"%char s -> ~ In "&"%char s -> (forall c r', r = c :: r' -> neither c = false) ->
  fragment (S fuel) b (s ++ r) = fragment fuel (add_roff b s) r.
Proof.
  intros E N1 N2 R. rewrite fragment_eq, (span_rest neither s r (neither_no s N1 N2) R).
  destruct s as [|c s]; [contradiction|]. cbn [app]. cbv beta iota zeta.
  assert (C1 : ceq c "<" = false) by (apply ceq_neq; intros ->; apply N1; left; reflexivity).
  assert (C2 : ceq c "&" = false) by (apply ceq_neq; intros ->; apply N2; left; reflexivity).
  rewrite C1, C2. reflexivity.
Qed.
Lemma html_head l c r : pieces_ok l -> html l = c :: r -> match l with Plain _ :: _ => True | _ => neither c = false end.
Proof.
  destruct l as [|[s|d|t] l]; intros P E; [discriminate E|exact I| |].
  - cbn in E. injection E as <- _. reflexivity.
  - cbn in E. injection E as <- _. reflexivity.
Qed.
Lemma fragment_pieces l : pieces_ok l -> forall fuel b, length (html l) < fuel -> fragment fuel b (html l) = Some (fold_left put_piece l b).
Proof.
  induction l as [|p l IH]; intros P fuel b F; destruct fuel as [|fuel]; try lia; [reflexivity|].
  cbn [pieces_ok] in P. destruct P as (P1 & P2 & P3). change (html (p :: l)) with (html_of p ++ html l) in *.
  rewrite app_length in F. cbn [fold_left].
  destruct p as [s|c|t]; cbn [put_piece].
  - cbn [html_of] in *. destruct P1 as (E & N1 & N2). rewrite fragment_plain; [|assumption..|].
    + apply IH; [exact P3|]. destruct s; [contradiction|]. cbn in F. lia.
    + intros c r' H. pose proof (html_head l c r' P3 H) as K. destruct l as [|[]]; first [exact K|discriminate H|contradiction].
  - rewrite (fragment_ent _ _ _ _ P1). apply IH; [exact P3|]. cbn in F. lia.
  - cbn [html_of]. rewrite <- !app_assoc, (fragment_tag _ _ _ _ P1). apply IH; [exact P3|].
    cbn [html_of] in F. rewrite !app_length in F. cbn in F. lia.
Qed.
Lemma entity_some s x n : entity s = Some (x, n) -> exists c r, In c ["<"; ">"; "&"; DQ; SQ]%char /\ s = html_of (Ent c) ++ r /\ skipn n s = r.
Proof.
  unfold entity. intros H.
  destruct (starts (B "&lt;") s) eqn:S1; [apply starts_spec in S1 as [r ->]; injection H as <- <-; exists "<"%char, r; cbn; auto|].
  destruct (starts (B "&gt;") s) eqn:S2; [apply starts_spec in S2 as [r ->]; injection H as <- <-; exists ">"%char, r; cbn; auto|].
  destruct (starts (B "&amp;") s) eqn:S3; [apply starts_spec in S3 as [r ->]; injection H as <- <-; exists "&"%char, r; cbn; auto 6|].
  destruct (starts (B "&quot;") s) eqn:S4; [apply starts_spec in S4 as [r ->]; injection H as <- <-; exists DQ, r; cbn; auto 7|].
  destruct (starts (B "&#39;") s) eqn:S5; [apply starts_spec in S5 as [r ->]; injection H as <- <-; exists SQ, r; cbn; auto 8|].
  discriminate H.
Qed.
Lemma pieces_of fuel : forall b s x, fragment fuel b s = Some x -> exists l, pieces_ok l /\ s = html l.
Proof.
  induction fuel as [|fuel IH]; intros b s x H; [discriminate H|]. rewrite fragment_eq in H.
  destruct s as [|c s]; [exists []; split; [exact I|reflexivity]|]. cbv zeta in H.
  assert (T : (let (y, r) := span neither (c :: s) in fragment fuel (add_roff b y) r) = Some x -> exists l, pieces_ok l /\ c :: s = html l).
  { clear H. destruct (span neither (c :: s)) as [y r] eqn:E. intros H. destruct (span_spec _ _ _ _ E) as (S1 & S2 & S3).
    apply IH in H as (l & P & R). destruct y as [|a y]; [exists l; split; [exact P|]; rewrite S1; exact R|].
    exists (Plain (a :: y) :: l). split; [|rewrite S1, R; reflexivity]. cbn [pieces_ok piece_ok].
    assert (N : forall d, neither d = false -> ~ In d (a :: y)).
    { intros d D I. rewrite forallb_forall in S2. rewrite (S2 d I) in D. discriminate D. }
    split; [split; [discriminate|split; apply N; reflexivity]|]. split; [|exact P].
    destruct l as [|[z|?|?] l]; try exact I. cbn [pieces_ok piece_ok] in P. destruct P as ((P1 & P2 & P3) & _).
    destruct z as [|d z]; [contradiction|]. cbn in R. specialize (S3 d _ R). unfold neither in S3.
    apply andb_false_iff in S3 as [S3|S3]; apply negb_false_iff in S3; apply ceqs in S3 as ->; [apply P2|apply P3]; left; reflexivity. }
  assert (O : (if ceq c "&" then match entity (c :: s) with Some (x, n) => fragment fuel (b ++ x) (skipn n (c :: s)) | None =>
     let (x, r) := span neither (c :: s) in fragment fuel (add_roff b x) r end else
     let (x, r) := span neither (c :: s) in fragment fuel (add_roff b x) r) = Some x -> exists l, pieces_ok l /\ c :: s = html l).
  { clear H. destruct (ceq c "&"); [|exact T]. destruct (entity (c :: s)) as [[y n]|] eqn:E; [|exact T]. intros H.
    apply entity_some in E as (d & r & D & S1 & S2). rewrite S2 in H. apply IH in H as (l & P & R).
    exists (Ent d :: l). split; [cbn [pieces_ok piece_ok]; auto|]. rewrite S1, R. reflexivity. }
  destruct (ceq c "<") eqn:C; [|exact (O H)]. destruct (strchr ">"%char (c :: s)) as [k|] eqn:K; [|exact (O H)].
  apply ceqs in C as ->. apply IH in H as (l & P & R).
  cbn [strchr] in K. change (ceq "<" ">") with false in K. cbv iota in K.
  destruct (strchr ">"%char s) as [j|] eqn:J; [|discriminate K]. injection K as <-.
  apply strchr_some in J as (a & r & S1 & L & N).
  exists (Tag a :: l). split; [cbn [pieces_ok piece_ok]; auto|].
  change (html (Tag a :: l)) with ((B "<" ++ a ++ B ">") ++ html l). rewrite <- R, S1. cbn [Nat.add skipn].
  rewrite skipn_app, skipn_all2 by lia. replace (j + 1 - length a) with 1 by lia. cbn [skipn app].
  rewrite <- !app_assoc. reflexivity.
Qed.
Lemma fragment_ends b s : (exists x, fragment_of b s = Some x) <-> exists l, pieces_ok l /\ s = html l.
Proof.
  split.
  - intros (x & H). exact (pieces_of _ _ _ _ H).
  - intros (l & P & ->). exists (fold_left put_piece l b). apply fragment_pieces; [exact P|lia].
Qed.
Lemma fragment_hangs s : ~ (exists l, pieces_ok l /\ s = html l) -> forall fuel b, fragment fuel b s = None.
Proof.
  intros N fuel b. destruct (fragment fuel b s) as [x|] eqn:E; [|reflexivity]. destruct N. exact (pieces_of _ _ _ _ E).
Qed.

(** What is read of a fragment. *)
Lemma font_run x : In x [B "\f[B]"; B "\f[]"; B "\f[I]"; B "\fR"; []] -> forall st, run (md st) x = (md (fin st x), []).
Proof. intros I. cbn in I. repeat (destruct I as [<-|I]; [lit|]). contradiction. Qed.
Lemma tag_roff_font t : In (tag_roff t) [B "\f[B]"; B "\f[]"; B "\f[I]"; B "\fR"; []].
Proof.
  unfold tag_roff. destruct (tag_is 8 _ t); [left; reflexivity|]. destruct (tag_is 9 _ t); [right; left; reflexivity|].
  destruct (tag_is 5 _ t); [do 2 right; left; reflexivity|]. destruct (tag_is 6 (B "</em>") t); [right; left; reflexivity|].
  destruct (tag_is 6 _ t); [do 3 right; left; reflexivity|]. destruct (tag_is 7 _ t); [right; left; reflexivity|].
  do 4 right. left. reflexivity.
Qed.
Lemma good_pieces l : pieces_ok l -> ~ In (Ent SQ) l -> forall b e, good b e ->
  exists e', good (fold_left put_piece l b) (e ++ e') /\ shown_text e' = concat (map meaning l) /\ requests e' = [].
Proof.
  induction l as [|p l IH]; intros P N b e G; [exists []; rewrite app_nil_r; auto|].
  cbn [pieces_ok] in P. destruct P as (P1 & P2 & P3). cbn [fold_left map concat].
  assert (K : exists e1, good (put_piece b p) (e ++ e1) /\ shown_text e1 = meaning p /\ requests e1 = []).
  { destruct p as [s|c|t]; cbn [put_piece meaning].
    - exists (map Ch (dashes s)). rewrite shown_ch, requests_ch. split; [apply good_roff; exact G|auto].
    - exists [Ch c]. split; [|split; reflexivity]. apply good_lit; [|exact G]. cbn in P1.
      repeat (destruct P1 as [<-|P1]; [first [lit|exfalso; apply N; left; reflexivity]|]). contradiction.
    - exists []. split; [|split; reflexivity]. apply good_lit; [|exact G]. apply font_run, tag_roff_font. }
  destruct K as (e1 & G1 & W1 & R1). destruct (IH P3 (fun I => N (or_intror I)) _ _ G1) as (e2 & G2 & W2 & R2).
  exists (e1 ++ e2). rewrite app_assoc. split; [exact G2|]. rewrite shown_app, requests_app, W1, W2, R1, R2. auto.
Qed.

(** ** Definition lists *)
Lemma strstr_pass lit P s : (forall a b, P = a ++ b -> b <> [] -> starts lit (b ++ s) = false) ->
  strstr lit (P ++ s) = option_map (Nat.add (length P)) (strstr lit s).
Proof.
  induction P as [|c P IH]; intros H; [cbn; destruct (strstr lit s); reflexivity|].
  cbn [app strstr length]. pose proof (H [] (c :: P) eq_refl ltac:(discriminate)) as S0. cbn [app] in S0. rewrite S0.
  rewrite IH; [destruct (strstr lit s); reflexivity|]. intros a b E N. apply (H (c :: a) b); [rewrite E; reflexivity|exact N].
Qed.
Lemma no_d_suffix s a b : no_d s -> s = a ++ b -> no_d b.
Proof. intros N -> x y. split; intros ->; destruct (N (a ++ x) y) as [N1 N2]; [apply N1|apply N2]; rewrite <- app_assoc; reflexivity. Qed.
Lemma pass_open c s r : no_d s -> (match r with "<"%char :: _ => True | _ => False end) -> forall a b, s = a ++ b -> b <> [] -> starts (B "<d" ++ [c]) (b ++ r) = false.
Proof.
  intros N R a b E Nb. pose proof (no_d_suffix s a b N E) as M. destruct (starts (B "<d" ++ [c]) (b ++ r)) eqn:S; [|reflexivity].
  apply starts_spec in S as [y S]. destruct b as [|b0 [|b1 b]]; [contradiction| |].
  - cbn in S. injection S as -> S. destruct r as [|r0 r]; [contradiction|]. injection S as -> _. contradiction.
  - cbn in S. injection S as -> -> _. destruct (M [] b) as [M1 _]. contradiction M1. reflexivity.
Qed.
Lemma pass_close c s r : no_d s -> (match r with "<"%char :: _ => True | _ => False end) -> forall a b, s = a ++ b -> b <> [] -> starts (B "</d" ++ c) (b ++ r) = false.
Proof.
  intros N R a b E Nb. pose proof (no_d_suffix s a b N E) as M. destruct (starts (B "</d" ++ c) (b ++ r)) eqn:S; [|reflexivity].
  apply starts_spec in S as [y S]. destruct r as [|r0 r]; [contradiction|]. destruct b as [|b0 [|b1 [|b2 b]]]; [contradiction| | |].
  - cbn in S. injection S as -> -> _. contradiction.
  - cbn in S. injection S as -> -> -> _. contradiction.
  - cbn in S. injection S as -> -> -> _. destruct (M [] b) as [_ M1]. contradiction M1. reflexivity.
Qed.
Lemma span_none s r : blank_start s = false -> (match r with "<"%char :: _ => True | _ => False end) ->
  span (fun c => ceq c SP || ceq c NL) (s ++ r) = ([], s ++ r).
Proof.
  intros H R. destruct s as [|c s]; cbn [app span].
  - destruct r as [|c r]; [contradiction|]. destruct (ceq c "<") eqn:C; [apply ceqs in C as ->; reflexivity|].
    destruct c as [[] [] [] [] [] [] [] []]; try contradiction; discriminate C.
  - cbn in H. cbn [span]. rewrite H. reflexivity.
Qed.
Lemma find_dt t r : no_d t -> blank_start t = false -> r <> [] ->
  find_d (B "dt") (B "<dl>" ++ [NL] ++ B "<dt>" ++ t ++ B "</dt>" ++ r) = Some t.
Proof.
  intros N Hb Hr. unfold find_d.
  change (strstr (B "<" ++ B "dt") (B "<dl>" ++ [NL] ++ B "<dt>" ++ t ++ B "</dt>" ++ r)) with (Some 5). cbv iota zeta.
  change (skipn 5 (B "<dl>" ++ [NL] ++ B "<dt>" ++ t ++ B "</dt>" ++ r)) with (B "<dt>" ++ t ++ B "</dt>" ++ r).
  change (length (B "<dt>" ++ t ++ B "</dt>" ++ r) <? 4) with false. cbv iota.
  change (skipn 3 (B "<dt>" ++ t ++ B "</dt>" ++ r)) with (B ">" ++ t ++ B "</dt>" ++ r).
  change (strchr ">"%char (B ">" ++ t ++ B "</dt>" ++ r)) with (Some 0). cbv iota. change (0 + 1) with 1.
  change (skipn 1 (B ">" ++ t ++ B "</dt>" ++ r)) with (t ++ B "</dt>" ++ r).
  rewrite (span_none t (B "</dt>" ++ r) Hb I). cbn [snd].
  change (B "</" ++ B "dt" ++ B ">") with (B "</d" ++ B "t>").
  rewrite strstr_pass by (apply pass_close; [exact N|exact I]).
  change (strstr (B "</d" ++ B "t>") (B "</dt>" ++ r)) with (Some 0). cbn [option_map]. rewrite Nat.add_0_r.
  rewrite skipn_app, skipn_all, Nat.sub_diag, firstn_app, firstn_all, Nat.sub_diag. cbn [skipn firstn app]. rewrite app_nil_r.
  destruct r as [|r0 r]; [contradiction|]. reflexivity.
Qed.
Lemma find_dd t d r : no_d t -> no_d d -> blank_start d = false -> r <> [] ->
  find_d (B "dd") (B "<dl>" ++ [NL] ++ B "<dt>" ++ t ++ B "</dt>" ++ [NL] ++ B "<dd>" ++ d ++ B "</dd>" ++ r) = Some d.
Proof.
  intros Nt N Hb Hr. unfold find_d.
  assert (K : strstr (B "<" ++ B "dd") (B "<dl>" ++ [NL] ++ B "<dt>" ++ t ++ B "</dt>" ++ [NL] ++ B "<dd>" ++ d ++ B "</dd>" ++ r) = Some (15 + length t)).
  { change (B "<" ++ B "dd") with (B "<d" ++ ["d"%char]).
    replace (B "<dl>" ++ [NL] ++ B "<dt>" ++ t ++ B "</dt>" ++ [NL] ++ B "<dd>" ++ d ++ B "</dd>" ++ r) with
      ((B "<dl>" ++ [NL] ++ B "<dt>") ++ t ++ B "</dt>" ++ [NL] ++ B "<dd>" ++ d ++ B "</dd>" ++ r) by (rewrite <- !app_assoc; reflexivity).
    set (tail := t ++ _).
    assert (E : strstr (B "<d" ++ ["d"%char]) ((B "<dl>" ++ [NL] ++ B "<dt>") ++ tail) = option_map (Nat.add 9) (strstr (B "<d" ++ ["d"%char]) tail)).
    { cbn. destruct (strstr ["<"%char; "d"%char; "d"%char] tail); reflexivity. }
    rewrite E. subst tail. rewrite strstr_pass by (apply pass_open; [exact Nt|exact I]).
    change (strstr (B "<d" ++ ["d"%char]) (B "</dt>" ++ [NL] ++ B "<dd>" ++ d ++ B "</dd>" ++ r)) with (Some 6). cbn [option_map]. f_equal. lia. }
  rewrite K. cbv iota zeta.
  assert (S : skipn (15 + length t) (B "<dl>" ++ [NL] ++ B "<dt>" ++ t ++ B "</dt>" ++ [NL] ++ B "<dd>" ++ d ++ B "</dd>" ++ r) = B "<dd>" ++ d ++ B "</dd>" ++ r).
  { replace (B "<dl>" ++ [NL] ++ B "<dt>" ++ t ++ B "</dt>" ++ [NL] ++ B "<dd>" ++ d ++ B "</dd>" ++ r) with
      ((B "<dl>" ++ [NL] ++ B "<dt>" ++ t ++ B "</dt>" ++ [NL]) ++ B "<dd>" ++ d ++ B "</dd>" ++ r) by (rewrite <- !app_assoc; reflexivity).
    rewrite skipn_app, skipn_all2 by (rewrite !app_length; cbn; lia).
    replace (15 + length t - length (B "<dl>" ++ [NL] ++ B "<dt>" ++ t ++ B "</dt>" ++ [NL])) with 0 by (clear; rewrite !app_length; cbn [length B list_ascii_of_string]; lia). reflexivity. }
  rewrite S. change (length (B "<dd>" ++ d ++ B "</dd>" ++ r) <? 4) with false. cbv iota.
  change (skipn 3 (B "<dd>" ++ d ++ B "</dd>" ++ r)) with (B ">" ++ d ++ B "</dd>" ++ r).
  change (strchr ">"%char (B ">" ++ d ++ B "</dd>" ++ r)) with (Some 0). cbv iota. change (0 + 1) with 1.
  change (skipn 1 (B ">" ++ d ++ B "</dd>" ++ r)) with (d ++ B "</dd>" ++ r).
  rewrite (span_none d (B "</dd>" ++ r) Hb I). cbn [snd].
  change (B "</" ++ B "dd" ++ B ">") with (B "</d" ++ B "d>").
  rewrite strstr_pass by (apply pass_close; [exact N|exact I]).
  change (strstr (B "</d" ++ B "d>") (B "</dd>" ++ r)) with (Some 0). cbn [option_map]. rewrite Nat.add_0_r.
  rewrite skipn_app, skipn_all, Nat.sub_diag, firstn_app, firstn_all, Nat.sub_diag. cbn [skipn firstn app]. rewrite app_nil_r.
  destruct r as [|r0 r]; [contradiction|]. reflexivity.
Qed.
Lemma render_dl_ok lt ld b e : pieces_ok lt -> pieces_ok ld -> ~ In (Ent SQ) (lt ++ ld) ->
  no_d (html lt) -> no_d (html ld) -> blank_start (html lt) = false -> blank_start (html ld) = false -> good b e ->
  exists b' e', render_dl b (dl_html (html lt) (html ld)) = Some (Some b') /\ good b' (e ++ e') /\
    shown_text e' = [NL] ++ concat (map meaning lt) ++ [NL] ++ concat (map meaning ld) ++ [NL] /\ requests e' = [B "TP"].
Proof.
  intros P1 P2 N D1 D2 B1 B2 G. unfold render_dl, dl_html. change (is_dl _) with true at 1. cbn [negb].
  rewrite find_dt by (assumption || discriminate). rewrite find_dd by (assumption || discriminate).
  unfold fragment_of. rewrite fragment_pieces by (assumption || lia). rewrite fragment_pieces by (assumption || lia).
  assert (G0 : good (b ++ [NL] ++ B ".TP" ++ [NL]) (e ++ [Ch NL; Req (B "TP")])) by (apply good_lit; [lit|exact G]).
  destruct (good_pieces lt P1 (fun I => N (in_or_app _ _ _ (or_introl I))) _ _ G0) as (e1 & G1 & W1 & R1).
  assert (G2 : good (fold_left put_piece lt (b ++ [NL] ++ B ".TP" ++ [NL]) ++ [NL]) (((e ++ [Ch NL; Req (B "TP")]) ++ e1) ++ [Ch NL])) by (apply good_lit; [lit|exact G1]).
  destruct (good_pieces ld P2 (fun I => N (in_or_app _ _ _ (or_intror I))) _ _ G2) as (e2 & G3 & W2 & R2).
  eexists. exists ([Ch NL; Req (B "TP")] ++ e1 ++ [Ch NL] ++ e2 ++ [Ch NL]). split; [reflexivity|]. split; [|split].
  - replace (e ++ _) with (((((e ++ [Ch NL; Req (B "TP")]) ++ e1) ++ [Ch NL]) ++ e2) ++ [Ch NL]) by (rewrite <- !app_assoc; reflexivity).
    apply good_lit; [lit|exact G3].
  - rewrite !shown_app, W1, W2. reflexivity.
  - rewrite !requests_app, R1, R2. reflexivity.
Qed.

(** ** The title *)
Lemma roff_no_dq s : ~ In DQ s -> ~ In DQ (roff false s).
Proof.
  induction s as [|c r IH IH3] using str_ind3; intros N; [exact N|]. cbn [roff andb].
  assert (R : ~ In DQ (roff false r)) by (apply IH; intros I; apply N; right; exact I).
  assert (R' : forall y st, ~ In DQ y -> ~ In DQ (roff st y)).
  { clear. intros y. induction y as [|c r IH IH3] using str_ind3; intros st N; [exact N|]. cbn [roff].
    assert (R : forall st, ~ In DQ (roff st r)) by (intros st'; apply IH; intros I; apply N; right; exact I).
    assert (C : c <> DQ) by (intros ->; apply N; left; reflexivity).
    assert (L : forall st, ~ In DQ (c :: roff st r)) by (intros st' [I|I]; [exact (C I)|exact (R _ I)]).
    assert (A : forall x z, forallb (fun c => negb (ceq c DQ)) x = true -> ~ In DQ z -> ~ In DQ (x ++ z)).
    { intros x z X Z I. apply in_app_or in I as [I|I]; [|exact (Z I)]. rewrite forallb_forall in X. specialize (X _ I). discriminate X. }
    destruct (ceq c BS); [apply A; [reflexivity|apply R]|]. destruct (ceq c NL) eqn:C2; [apply ceqs in C2 as ->; apply L|].
    destruct (st && _); [apply A; [reflexivity|apply L]|]. destruct (ceq c "-"); [apply A; [reflexivity|apply R]|].
    destruct r as [|d [|e r']]; [apply L|apply L|].
    assert (R3 : ~ In DQ (roff false r')) by (apply (IH3 _ _ _ eq_refl); intros I; apply N; right; right; right; exact I).
    destruct (_ && _); [apply A; [reflexivity|exact R3]|]. destruct (_ && _); [apply A; [reflexivity|exact R3]|]. apply L. }
  exact (R' (c :: r) false N).
Qed.
Lemma quoted_arg_ok x r : ~ In DQ x -> (forall y, r <> DQ :: y) -> quoted_arg (x ++ DQ :: r) = Some (x, r).
Proof.
  intros N R. induction x as [|c x IH]; cbn [app quoted_arg].
  - rewrite ceq_refl. destruct r as [|d r]; [reflexivity|]. destruct (ceq d DQ) eqn:D; [apply ceqs in D as ->; destruct (R r eq_refl)|reflexivity].
  - assert (C : ceq c DQ = false) by (apply ceq_neq; intros ->; apply N; left; reflexivity).
    rewrite C, IH; [reflexivity|]. intros I. apply N. right. exact I.
Qed.
Lemma title_ok t : ~ In DQ t -> exists y x r, title_line t = B ".TH " ++ [DQ] ++ y /\ quoted_arg y = Some (x, r) /\
  shown_text (snd (run Txt x)) = dashes t.
Proof.
  intros N. unfold title_line, add_roff. change (at_start (B ".TH " ++ [DQ])) with false.
  exists (roff false t ++ DQ :: (B " " ++ [DQ] ++ B "1" ++ [DQ] ++ B " " ++ [DQ] ++ B "1 January 1970" ++ [DQ] ++ B " " ++ [DQ] ++ [DQ] ++ [NL])).
  exists (roff false t). eexists. split; [rewrite <- !app_assoc; reflexivity|]. split; [apply quoted_arg_ok; [exact (roff_no_dq t N)|discriminate]|].
  change Txt with (md false). rewrite run_roff. cbn [snd]. apply shown_ch.
Qed.

(** ** The static *)
Lemma no_dl_eq k ch : no_html (Node k ch) -> (forall s, k <> HtmlBlock s) /\ Forall no_html ch.
Proof.
  intros H. cbn [no_html] in H. destruct k; try contradiction H; (split; [discriminate|]);
    (induction ch as [|c ch IH]; [constructor|destruct H as [H1 H2]; constructor; [exact H1|exact (IH H2)]]).
Qed.
Lemma flag_all k l : Forall (fun n => forall p f b b' d, block p f n b false = Some (b', d) -> d = false) l -> forall f b b' d,
  (fix all (first : bool) (l : list node) (b : str) (dd : bool) :=
    match l with
    | [] => Some (b, dd)
    | c :: l => match block (Some k) first c b dd with Some (b', dd') => all false l b' dd' | None => None end
    end) f l b false = Some (b', d) -> d = false.
Proof.
  induction 1 as [|c l H1 _ IH]; intros f b b' d H; [injection H as _ <-; reflexivity|].
  destruct (block (Some k) f c b false) as [[b1 d1]|] eqn:E; [|discriminate H]. rewrite (H1 _ _ _ _ _ E) in H. exact (IH _ _ _ _ H).
Qed.
Lemma flag_block n : no_html n -> forall p f b b' d, block p f n b false = Some (b', d) -> d = false.
Proof.
  induction n as [k ch IH] using node_ind'. intros T p f b b' d H. apply no_dl_eq in T as [T1 T2].
  assert (F : Forall (fun n => forall p f b b' d, block p f n b false = Some (b', d) -> d = false) ch).
  { rewrite Forall_forall in *. intros c I. apply (IH c I), (T2 c I). }
  clear IH T2. pose proof (flag_all k ch F) as A.
  destruct k; cbn [block] in H; try exact (A _ _ _ _ H); try (injection H as _ <-; reflexivity).
  - cbn [orb] in H. destruct (match p with Some (Item _) => true | _ => false end); injection H as _ <-; reflexivity.
  - match type of H with match ?x with _ => _ end = _ => destruct x as [[b1 d1]|] eqn:E end; [|discriminate H].
    injection H as _ <-. exact (A _ _ _ _ E).
  - destruct (T1 _ eq_refl).
Qed.
Lemma flag_to_roff ch out d : Forall no_html ch -> to_roff false (Node Document ch) = Some (out, d) -> d = false.
Proof.
  intros F H. unfold to_roff in H. refine (flag_block (Node Document ch) _ _ _ _ _ _ H).
  cbn [no_html]. clear H. induction F; [exact I|split; assumption].
Qed.
