(** The JSON reader terminates on every input: the fuel given is enough. *)
From Verif Require Import Base BaseL M_Encode M_Json S_Json L_Json.

Definition tot {A} (x : option (A * str)) (n : nat) : Prop :=
  exists a s', x = Some (a, s') /\ length s' <= n.

Lemma tot_some {A} (a : A) s n : length s <= n -> tot (Some (a, s)) n.
Proof. intros. exists a, s. auto. Qed.

Lemma skipn1_len (s : str) : length (skipn 1 s) <= length s - 1.
Proof. destruct s; cbn; lia. Qed.
Lemma skipn1_lt (s : str) ch : ch <> NUL -> ceq (at_ s 0) ch = true -> length (skipn 1 s) < length s.
Proof. intros N H. destruct s; [|cbn; lia]. apply ceq_eq in H. cbn in H. congruence. Qed.
Lemma span_snd_len p (s : str) : length (snd (span p s)) <= length s.
Proof.
  induction s as [|c s IH]; cbn; [lia|]. destruct (p c); [|cbn; lia].
  destruct (span p s). cbn in *. lia.
Qed.

Lemma skip_total : forall fuel,
  (forall s, 2 * length s + 2 <= fuel -> tot (skip_value fuel s) (length s)) /\
  (forall s, 2 * length s + 3 <= fuel -> tot (skip_object fuel s) (length s)) /\
  (forall s, 2 * length s + 3 <= fuel -> tot (skip_array fuel s) (length s)).
Proof.
  induction fuel as [|fuel (IHv & IHo & IHa)]; [repeat split; intros; lia|].
  assert (Ho : forall s, ceq (at_ (skip_ws s) 0) "}" = true -> 1 <= fuel ->
      tot (skip_object fuel s) (length s)).
  { intros s H F. destruct fuel as [|f]; [lia|]. rewrite skip_object_step. cbv zeta. rewrite H.
    apply tot_some. pose proof (skipn1_len (skip_ws s)). pose proof (skip_ws_len s). lia. }
  assert (Ha : forall s, ceq (at_ (skip_ws s) 0) "]" = true -> 1 <= fuel ->
      tot (skip_array fuel s) (length s)).
  { intros s H F. destruct fuel as [|f]; [lia|]. rewrite skip_array_step. cbv zeta. rewrite H.
    apply tot_some. pose proof (skipn1_len (skip_ws s)). pose proof (skip_ws_len s). lia. }
  repeat split.
  - intros s F. cbn [skip_value]. pose proof (skip_ws_len s) as L.
    destruct (skip_ws s) as [|c s2] eqn:E; cbv zeta; [apply tot_some; cbn; lia|].
    cbn [length] in L. destruct (ceq c DQ).
    { destruct (json_parse_string (c :: s2)) as [[x|] q] eqn:P; apply parse_string_len in P as [P _];
        cbn [length] in P; apply tot_some; lia. }
    destruct (ceq c "{").
    { destruct (IHo s2) as (a & s' & -> & L'); [lia|]. apply tot_some; lia. }
    destruct (ceq c "[").
    { destruct (IHa s2) as (a & s' & -> & L'); [lia|]. apply tot_some; lia. }
    apply tot_some. pose proof (span_snd_len token_char (c :: s2)) as L2. cbn [length] in L2. lia.
  - intros s F. rewrite skip_object_step. cbv zeta. pose proof (skip_ws_len s) as L.
    set (s1 := skip_ws s) in *. clearbody s1. pose proof (skipn1_len s1) as L1.
    destruct (ceq (at_ s1 0) "}"); [apply tot_some; lia|].
    destruct (json_parse_string s1) as [[x|] s2] eqn:P; apply parse_string_len in P as [P P'];
      [|apply tot_some; lia].
    assert (length s2 < length s1) by (apply P'; congruence).
    destruct (match_char ":" s2) as [[|] s3] eqn:M; apply match_char_len in M as [M M'];
      [|apply tot_some; lia].
    destruct (IHv s3) as (b & s4 & E & L4); [lia|]. rewrite E. destruct b; [|apply tot_some; lia].
    pose proof (skip_ws_len s4) as L5. pose proof (skip_ws_idem s4) as I5.
    set (s5 := skip_ws s4) in *. clearbody s5. pose proof (skipn1_len s5) as L6.
    destruct (ceq (at_ s5 0) ",").
    { destruct (IHo (skipn 1 s5)) as (a & s' & -> & L'); [lia|]. apply tot_some; lia. }
    destruct (ceq (at_ s5 0) "}") eqn:C; [|apply tot_some; lia].
    destruct (Ho s5) as (a & s' & -> & L'); [rewrite I5; exact C|lia|apply tot_some; lia].
  - intros s F. rewrite skip_array_step. cbv zeta. pose proof (skip_ws_len s) as L.
    set (s1 := skip_ws s) in *. clearbody s1. pose proof (skipn1_len s1) as L1.
    destruct (ceq (at_ s1 0) "]"); [apply tot_some; lia|].
    destruct (IHv s1) as (b & s4 & E & L4); [lia|]. rewrite E. destruct b; [|apply tot_some; lia].
    pose proof (skip_ws_len s4) as L5. pose proof (skip_ws_idem s4) as I5.
    set (s5 := skip_ws s4) in *. clearbody s5. pose proof (skipn1_len s5) as L6.
    destruct (ceq (at_ s5 0) ",") eqn:C0.
    { apply skipn1_lt in C0; [|discriminate].
      destruct (IHa (skipn 1 s5)) as (a & s' & -> & L'); [lia|]. apply tot_some; lia. }
    destruct (ceq (at_ s5 0) "]") eqn:C; [|apply tot_some; lia].
    destruct (Ha s5) as (a & s' & -> & L'); [rewrite I5; exact C|lia|apply tot_some; lia].
Qed.

Lemma json_skip_total s : tot (json_skip_value s) (length s).
Proof. apply skip_total. unfold skip_fuel. lia. Qed.

Lemma need_len ch s s' : need ch s = Some s' -> length s' < length s.
Proof.
  unfold need. destruct (match_char ch s) as [[|] q] eqn:E; [|discriminate].
  intros [= <-]. apply match_char_len in E as [_ E]. auto.
Qed.
Lemma need_value_len s s' : need_value s = Some s' -> length s' <= length s.
Proof.
  unfold need_value. destruct (json_skip_total s) as (b & q & -> & L).
  destruct b; [|discriminate]. intros [= <-]. exact L.
Qed.

(** The cursor and the captured value are within the text; the value is shorter. *)
Lemma inl_fields_total : forall fuel tag cbuf s n, length s < fuel -> length s <= n ->
  (forall c, cbuf = Some c -> length c < n) ->
  exists ok tag' cbuf' s', inl_fields fuel tag cbuf s = Some (ok, tag', cbuf', s') /\
    length s' <= length s /\ (forall c, cbuf' = Some c -> length c < n).
Proof.
  induction fuel as [|fuel IH]; intros tag cbuf s n F N C; [lia|]. cbn [inl_fields]. cbv zeta.
  pose proof (skip_ws_len s) as L. set (s1 := skip_ws s) in *. clearbody s1.
  pose proof (skipn1_len s1) as L1.
  destruct (ceq (at_ s1 0) "}"); [eexists _, _, _, _; split; [reflexivity|]; split; [lia|auto]|].
  destruct (json_parse_string s1) as [[x|] s2] eqn:P; apply parse_string_len in P as [P P'];
      [|eexists _, _, _, _; split; [reflexivity|]; split; [lia|auto]].
  assert (length s2 < length s1) by (apply P'; congruence).
  destruct (match_char ":" s2) as [[|] s3] eqn:M; apply match_char_len in M as [M M'];
      [|eexists _, _, _, _; split; [reflexivity|]; split; [lia|auto]].
  assert (NX : forall tag cbuf s4, length s4 <= length s3 -> (forall c, cbuf = Some c -> length c < n) ->
    exists ok tag' cbuf' s',
    inl_fields fuel tag cbuf (if ceq (at_ (skip_ws s4) 0) "," then skipn 1 (skip_ws s4) else skip_ws s4)
      = Some (ok, tag', cbuf', s') /\
    length s' <= length s /\ (forall c, cbuf' = Some c -> length c < n)).
  { intros tg cb s4 L4 C4. pose proof (skip_ws_len s4) as L5. pose proof (skipn1_len (skip_ws s4)) as L6.
    match goal with |- context [inl_fields fuel tg cb ?x] =>
      assert (length x <= length s3) as LX by (destruct (ceq (at_ (skip_ws s4) 0) ","); lia);
      destruct (IH tg cb x n) as (a & b & c & d & E & L' & C'); [lia|lia|exact C4|];
      rewrite E; exists a, b, c, d; split; [reflexivity|]; split; [lia|exact C'] end. }
  destruct (seq_ x (B "t")).
  { destruct (json_parse_string s3) as [[y|] s4] eqn:P3; apply parse_string_len in P3 as [P3 _];
      [apply NX; auto|eexists _, _, _, _; split; [reflexivity|]; split; [lia|auto]]. }
  destruct (seq_ x (B "c")).
  { pose proof (skip_ws_len s3) as L3. set (v := skip_ws s3) in *. clearbody v.
    destruct (json_skip_total v) as (b & s4 & E & L4). rewrite E.
    destruct b; [|eexists _, _, _, _; split; [reflexivity|]; split; [lia|auto]].
    apply NX; [lia|]. intros c [= <-]. rewrite firstn_length. lia. }
  destruct (json_skip_total s3) as (b & s4 & E & L4). rewrite E.
  destruct b; [apply NX; auto|eexists _, _, _, _; split; [reflexivity|]; split; [lia|auto]].
Qed.

Lemma inlines_total : forall fuel,
  (forall s, 2 * length s + 1 <= fuel -> tot (parse_inlines fuel s) (length s)) /\
  (forall kids s, 2 * length s + 2 <= fuel -> tot (inl_loop fuel kids s) (length s)).
Proof.
  induction fuel as [|fuel (IHp & IHl)]; [split; intros; lia|]. split.
  - intros s F. cbn [parse_inlines].
    destruct (match_char "[" s) as [[|] s1] eqn:M; apply match_char_len in M as [M M']; [|apply tot_some; lia].
    specialize (M' eq_refl). cbv zeta. pose proof (skip_ws_len s1) as L.
    set (s2 := skip_ws s1) in *. clearbody s2. pose proof (skipn1_len s2).
    destruct (ceq (at_ s2 0) "]"); [apply tot_some; lia|].
    destruct (IHl [] s2) as (kids & s3 & -> & L3); [lia|].
    destruct (match_char "]" s3) as [ok s4] eqn:M4; apply match_char_len in M4 as [M4 _].
    apply tot_some. lia.
  - intros kids s F. cbn [inl_loop]. cbv zeta. pose proof (skip_ws_len s) as L.
    set (s1 := skip_ws s) in *. clearbody s1.
    destruct (ceq (at_ s1 0) "{") eqn:B0; cbn [negb]; [|apply tot_some; lia].
    apply skipn1_lt in B0; [|discriminate].
    destruct (inl_fields_total (S (length s1)) None None (skipn 1 s1) (length (skipn 1 s1)))
      as (ok & tag & cb & s2 & -> & L2 & C2); [lia|lia|discriminate|].
    destruct ok; [|apply tot_some; lia]. destruct tag as [tag|]; [|apply tot_some; lia].
    destruct cb as [c|]; [|apply tot_some; lia]. specialize (C2 c eq_refl).
    match goal with |- tot (match ?m with Some _ => _ | None => None end) _ =>
      assert (exists r, m = Some r) as (r & ->) end.
    { destruct (seq_ tag (B "Str")); [eauto|]. destruct (seq_ tag (B "SoftBreak")); [eauto|].
      destruct (seq_ tag (B "LineBreak")); [eauto|].
      destruct (seq_ tag (B "Emph") || seq_ tag (B "Strong")).
      { destruct (need "[" c) as [c1|] eqn:E1; [|eauto]. apply need_len in E1.
        pose proof (skip_ws_len c1). destruct (ceq (at_ (skip_ws c1) 0) "]"); [eauto|].
        destruct (IHp (skip_ws c1)) as (a & b & -> & _); [lia|]. eauto. }
      destruct (seq_ tag (B "Code")); [eauto|]. destruct (seq_ tag (B "Span")).
      { destruct (do c1 <- need "[" c; do c2 <- need_value c1; need "," c2) as [c3|] eqn:E; [|eauto].
        assert (length c3 < length c).
        { unfold bind in E. destruct (need "[" c) as [c1|] eqn:E1; [|discriminate]. apply need_len in E1.
          destruct (need_value c1) as [c2|] eqn:E2; [|discriminate]. apply need_value_len in E2.
          apply need_len in E. lia. }
        destruct (IHp c3) as (a & b & -> & _); [lia|]. eauto. }
      destruct (seq_ tag (B "Math")); [eauto|]. destruct (seq_ tag (B "RawInline")); eauto. }
    destruct r as [l|]; [|apply tot_some; lia].
    pose proof (skip_ws_len s2) as L3. set (s3 := skip_ws s2) in *. clearbody s3.
    pose proof (skipn1_len s3). destruct (ceq (at_ s3 0) ","); [|apply tot_some; lia].
    destruct (IHl (kids ++ l) (skipn 1 s3)) as (a & b & -> & L'); [lia|]. apply tot_some; lia.
Qed.

Lemma blk_fields_total : forall fuel tag cbuf s n, length s < fuel -> length s <= n ->
  (forall c, cbuf = Some c -> length c < n) ->
  exists r s', blk_fields fuel tag cbuf s = Some (r, s') /\
    length s' <= length s /\ (forall t c, r = Some (t, c) -> length c < n).
Proof.
  induction fuel as [|fuel IH]; intros tag cbuf s n F N C; [lia|]. cbn [blk_fields]. cbv zeta.
  pose proof (skip_ws_len s) as L. set (s1 := skip_ws s) in *. clearbody s1.
  pose proof (skipn1_len s1) as L1.
  destruct (ceq (at_ s1 0) "}").
  { destruct tag as [t|]; [destruct cbuf as [c|]|];
      eexists _, _; (split; [reflexivity|]); (split; [lia|]); try discriminate.
    intros t' c' [= <- <-]. auto. }
  destruct (json_parse_string s1) as [[x|] s2] eqn:P; apply parse_string_len in P as [P P'];
      [|eexists _, _; split; [reflexivity|]; split; [lia|discriminate]].
  assert (length s2 < length s1) by (apply P'; congruence).
  destruct (match_char ":" s2) as [[|] s3] eqn:M; apply match_char_len in M as [M M'];
      [|eexists _, _; split; [reflexivity|]; split; [lia|discriminate]].
  assert (NX : forall tag cbuf s4, length s4 <= length s3 -> (forall c, cbuf = Some c -> length c < n) ->
    exists r s',
    blk_fields fuel tag cbuf (if ceq (at_ (skip_ws s4) 0) "," then skipn 1 (skip_ws s4) else skip_ws s4)
      = Some (r, s') /\
    length s' <= length s /\ (forall t c, r = Some (t, c) -> length c < n)).
  { intros tg cb s4 L4 C4. pose proof (skip_ws_len s4) as L5. pose proof (skipn1_len (skip_ws s4)) as L6.
    match goal with |- context [blk_fields fuel tg cb ?x] =>
      assert (length x <= length s3) as LX by (destruct (ceq (at_ (skip_ws s4) 0) ","); lia);
      destruct (IH tg cb x n) as (c & d & E & L' & C'); [lia|lia|exact C4|];
      rewrite E; exists c, d; split; [reflexivity|]; split; [lia|exact C'] end. }
  destruct (seq_ x (B "t")).
  { destruct (json_parse_string s3) as [[y|] s4] eqn:P3; apply parse_string_len in P3 as [P3 _];
      [apply NX; auto|eexists _, _; split; [reflexivity|]; split; [lia|discriminate]]. }
  destruct (seq_ x (B "c")).
  { pose proof (skip_ws_len s3) as L3. set (v := skip_ws s3) in *. clearbody v.
    destruct (json_skip_total v) as (b & s4 & E & L4). rewrite E.
    destruct b; [|eexists _, _; split; [reflexivity|]; split; [lia|discriminate]].
    apply NX; [lia|]. intros c [= <-]. rewrite firstn_length. lia. }
  destruct (json_skip_total s3) as (b & s4 & E & L4). rewrite E.
  destruct b; [apply NX; auto|eexists _, _; split; [reflexivity|]; split; [lia|discriminate]].
Qed.

Ltac bind_len :=
  repeat match goal with
  | H : bind (need ?ch ?s) _ = Some _ |- _ =>
      destruct (need ch s) eqn:?; cbn [bind] in H; [|discriminate]
  | H : bind (need_value ?s) _ = Some _ |- _ =>
      destruct (need_value s) eqn:?; cbn [bind] in H; [|discriminate]
  | H : need _ _ = Some _ |- _ => apply need_len in H
  | H : need_value _ = Some _ |- _ => apply need_value_len in H
  end.

Lemma parse_int_len s : length (snd (json_parse_int s)) <= length s.
Proof.
  unfold json_parse_int. pose proof (skip_ws_len s) as L. set (s1 := skip_ws s) in *. clearbody s1.
  pose proof (skipn1_len s1) as L1.
  set (s2 := if ceq (at_ s1 0) "-" then skipn 1 s1 else s1).
  assert (length s2 <= length s) by (unfold s2; destruct (ceq (at_ s1 0) "-"); lia).
  pose proof (span_snd_len isdigit s2) as L2. destruct (span isdigit s2). cbn in *. lia.
Qed.

Lemma blocks_total : forall fuel,
  (forall s, 2 * length s + 1 <= fuel -> tot (parse_block fuel s) (length s)) /\
  (forall s, 2 * length s + 1 <= fuel -> tot (parse_blocks fuel s) (length s)) /\
  (forall acc s, 2 * length s + 2 <= fuel -> tot (blocks_loop fuel acc s) (length s)) /\
  (forall items s, 2 * length s + 1 <= fuel ->
     exists r, list_loop fuel items s = Some r).
Proof.
  induction fuel as [|fuel (IHb & IHp & IHl & IHi)]; [repeat split; intros; lia|]. repeat split.
  - intros s F. cbn [parse_block].
    destruct (match_char "{" s) as [[|] s1] eqn:M; apply match_char_len in M as [M M']; [|apply tot_some; lia].
    specialize (M' eq_refl). cbv zeta.
    destruct (blk_fields_total (S (length s1)) None None s1 (length s1))
      as (r & s2 & -> & L2 & C2); [lia|lia|discriminate|].
    destruct r as [[tag c]|]; [|apply tot_some; lia]. specialize (C2 tag c eq_refl).
    assert (IN : forall c k, tot match parse_inlines (2 * length c + 3) c with
            | Some (l, _) => Some (Some [k l : blk], s2)
            | None => None
            end (length s)).
    { intros c0 k. destruct (proj1 (inlines_total (2 * length c0 + 3)) c0) as (a & b & -> & _); [lia|].
      apply tot_some. lia. }
    destruct (seq_ tag (B "Para")); [apply (IN c BPara)|].
    destruct (seq_ tag (B "Header")).
    { destruct (need "[" c) as [c1|]; [|apply tot_some; lia].
      destruct (json_parse_int c1) as [level c2].
      destruct (do c3 <- need "," c2; do c4 <- need_value c3; need "," c4); [|apply tot_some; lia].
      apply IN. }
    destruct (seq_ tag (B "HorizontalRule")); [apply tot_some; lia|].
    destruct (seq_ tag (B "RawBlock")); [apply tot_some; lia|].
    destruct (seq_ tag (B "CodeBlock")); [apply tot_some; lia|].
    destruct (seq_ tag (B "BulletList") || seq_ tag (B "OrderedList")).
    { match goal with |- tot (match ?m with Some _ => _ | None => _ end) _ => destruct m as [c2|] eqn:E end;
        [|apply tot_some; lia].
      assert (length c2 < length c).
      { destruct (seq_ tag (B "OrderedList")).
        - unfold bind in E at 1. destruct (need "[" c) as [c1|] eqn:E1; cbn [bind] in E; [|discriminate].
          apply need_len in E1. pose proof (parse_int_len c1).
          destruct (json_parse_int c1) as [z c3]. cbn [snd] in *. bind_len.
          repeat match type of E with match ?m with Some _ => _ | None => None end = _ =>
            destruct m eqn:?; [|discriminate] end. bind_len. lia.
        - bind_len. lia. }
      pose proof (skip_ws_len c2). destruct (IHi [] (skip_ws c2)) as (r & ->); [lia|].
      destruct r as [[items c3]|]; apply tot_some; lia. }
    destruct (seq_ tag (B "BlockQuote")).
    { destruct (need "[" c) as [c1|] eqn:E; [|apply tot_some; lia]. bind_len.
      destruct (IHp c1) as (a & b & -> & _); [lia|]. apply tot_some; lia. }
    destruct (seq_ tag (B "Div")).
    { destruct (do c1 <- need "[" c; do c2 <- need_value c1; need "," c2) as [c3|] eqn:E; [|apply tot_some; lia].
      bind_len. destruct (IHp c3) as (a & b & -> & _); [lia|]. apply tot_some; lia. }
    apply tot_some; lia.
  - intros s F. cbn [parse_blocks].
    destruct (match_char "[" s) as [[|] s1] eqn:M; apply match_char_len in M as [M M']; [|apply tot_some; lia].
    specialize (M' eq_refl). cbv zeta. pose proof (skip_ws_len s1) as L.
    set (s2 := skip_ws s1) in *. clearbody s2. pose proof (skipn1_len s2).
    destruct (ceq (at_ s2 0) "]"); [apply tot_some; lia|].
    destruct (IHl [] s2) as (kids & s3 & -> & L3); [lia|].
    destruct (match_char "]" s3) as [ok s4] eqn:M4; apply match_char_len in M4 as [M4 _].
    apply tot_some. lia.
  - intros acc s F. cbn [blocks_loop]. pose proof (skip_ws_len s) as L.
    destruct (IHb (skip_ws s)) as (r & s1 & -> & L1); [lia|].
    destruct r as [l|]; [|apply tot_some; lia]. cbv zeta.
    pose proof (skip_ws_len s1) as L3. set (s3 := skip_ws s1) in *. clearbody s3.
    pose proof (skipn1_len s3). destruct (ceq (at_ s3 0) ",") eqn:E; [|apply tot_some; lia].
    apply skipn1_lt in E; [|discriminate].
    destruct (IHl (acc ++ l) (skipn 1 s3)) as (a & b & -> & L'); [lia|]. apply tot_some; lia.
  - intros items s F. cbn [list_loop]. destruct (ceq (at_ s 0) "]"); [eauto|].
    destruct (need "[" s) as [c1|] eqn:E; [|eauto]. bind_len.
    destruct (IHp c1) as (l & c2 & -> & L2); [lia|].
    destruct (need "]" c2) as [c3|] eqn:E3; [|eauto]. bind_len. cbv zeta.
    pose proof (skip_ws_len c3) as L3. set (c4 := skip_ws c3) in *. clearbody c4.
    pose proof (skipn1_len c4). destruct (ceq (at_ c4 0) ","); [|eauto].
    apply IHi. lia.
Qed.

Lemma doc_fields_total : forall fuel acc s, length s < fuel -> exists r, doc_fields fuel acc s = Some r.
Proof.
  induction fuel as [|fuel IH]; intros acc s F; [lia|]. cbn [doc_fields]. cbv zeta.
  pose proof (skip_ws_len s) as L. set (s1 := skip_ws s) in *. clearbody s1.
  destruct (ceq (at_ s1 0) "}"); [eauto|].
  destruct (json_parse_string s1) as [[x|] s2] eqn:P; apply parse_string_len in P as [P P'];
      [|eauto].
  assert (length s2 < length s1) by (apply P'; congruence).
  destruct (match_char ":" s2) as [[|] s3] eqn:M; apply match_char_len in M as [M M']; [|eauto].
  assert (NX : forall acc s4, length s4 <= length s3 -> exists r,
    (if ceq (at_ (skip_ws s4) 0) "," then doc_fields fuel acc (skipn 1 (skip_ws s4))
     else Some (Some acc)) = Some r).
  { intros a s4 L4. pose proof (skip_ws_len s4) as L5. pose proof (skipn1_len (skip_ws s4)) as L6.
    destruct (ceq (at_ (skip_ws s4) 0) ","); [|eauto]. apply IH. lia. }
  destruct (seq_ x (B "blocks")).
  - destruct (proj1 (proj2 (blocks_total (blk_fuel s3))) s3) as (l & s4 & -> & L4);
      [unfold blk_fuel; lia|]. apply NX. exact L4.
  - destruct (json_skip_total s3) as (b & s4 & -> & L4). destruct b; [apply NX; exact L4|eauto].
Qed.

Lemma of_json_total s : exists r, of_json s = Some r.
Proof.
  unfold of_json. destruct (match_char "{" s) as [[|] s1]; [|eauto].
  apply doc_fields_total. lia.
Qed.
