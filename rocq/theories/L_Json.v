From Verif Require Import Base BaseL M_Encode M_Json S_Json.

(** ** Escaping *)
Definition esc_of (c : ascii) : str :=
  match esc2 c with
  | Some e => [BS; e]
  | None => if (code c <? 32)%N then esc_u c else [c]
  end.
Definition escaped (t : str) : str := flat_map esc_of t.

Lemma esc_u_len c : length (esc_u c) = 6.
Proof. reflexivity. Qed.
Lemma esc_of_len c : length (esc_of c) <= 6.
Proof. unfold esc_of. destruct (esc2 c); [cbn; lia|]. destruct (code c <? 32)%N; cbn; lia. Qed.
Lemma escaped_len t : length (escaped t) <= 6 * length t.
Proof.
  induction t as [|c t IH]; cbn [escaped flat_map length]; [lia|].
  rewrite app_length. pose proof (esc_of_len c). unfold escaped in IH. lia.
Qed.

Lemma esc_loop_ok cap : forall text out,
  length out + 6 * length text < cap ->
  esc_loop cap out false text = Some (out ++ escaped text, false).
Proof.
  induction text as [|c text IH]; intros out H; cbn [length] in H.
  - cbn. rewrite app_nil_r. destruct (Nat.leb_spec cap (length out)); [lia|reflexivity].
  - cbn [esc_loop escaped flat_map]. unfold esc_of.
    destruct (esc2 c) as [e|].
    + destruct (Nat.ltb_spec cap (length out + 2)); [lia|].
      rewrite IH; [rewrite <- app_assoc; reflexivity|]. rewrite app_length; cbn [length]; lia.
    + destruct (code c <? 32)%N.
      * rewrite esc_u_len. destruct (Nat.leb_spec (cap - length out) 6); [lia|].
        rewrite IH; [rewrite <- app_assoc; reflexivity|]. rewrite app_length, esc_u_len; lia.
      * destruct (Nat.ltb_spec cap (length out + 1)); [lia|].
        rewrite IH; [rewrite <- app_assoc; reflexivity|]. rewrite app_length; cbn [length]; lia.
Qed.

Lemma json_escape_ok text : json_escape text = Some (escaped text, false).
Proof. unfold json_escape. rewrite esc_loop_ok; [reflexivity|]. cbn [length]. lia. Qed.

Lemma quoted_ok text : quoted text = DQ :: escaped text ++ [DQ].
Proof. unfold quoted. rewrite json_escape_ok. reflexivity. Qed.

(** Per-byte facts, by enumeration. *)
Lemma esc2_some c e : esc2 c = Some e ->
  In (e, c) [(DQ, DQ); (BS, BS); ("/", "/"); ("b", "008"); ("f", "012");
             ("n", NL); ("r", CR); ("t", TAB)]%char.
Proof.
  unfold esc2. repeat match goal with |- context [if ceq c ?x then _ else _] =>
    destruct (ceq c x) eqn:?E end; intros [= <-];
  match goal with H : ceq c _ = true |- _ => apply ceq_eq in H; subst c end; cbn; tauto.
Qed.
Lemma esc2_none c : esc2 c = None -> c <> DQ /\ c <> BS /\ c <> NL /\ c <> CR /\ c <> TAB.
Proof.
  unfold esc2. repeat match goal with |- context [if ceq c ?x then _ else _] =>
    destruct (ceq c x) eqn:?E end; try discriminate. intros _.
  rewrite ceq_neq in *. auto 10.
Qed.

Definition hexdigitb := hexdigit.
Lemma hex2_hex c : hexdigit (hex_upper (code c / 16)) = true /\
  hexdigit (hex_upper (code c mod 16)) = true /\
  (code c = hexval (hex_upper (code c / 16)) * 16 + hexval (hex_upper (code c mod 16)))%N.
Proof.
  assert (forall c, hexdigit (hex_upper (code c / 16)) && hexdigit (hex_upper (code c mod 16)) &&
    (code c =? hexval (hex_upper (code c / 16)) * 16 + hexval (hex_upper (code c mod 16)))%N = true) as H
    by (apply byte_forall; vm_compute; reflexivity).
  specialize (H c). rewrite !andb_true_iff, N.eqb_eq in H. tauto.
Qed.

Lemma escaped_text text : body_text (escaped text) text.
Proof.
  induction text as [|c text IH]; [constructor|].
  cbn [escaped flat_map]. unfold esc_of. fold (escaped text).
  destruct (esc2 c) as [e|] eqn:E.
  - cbn [app]. apply bt_esc; [apply esc2_some; assumption|assumption].
  - apply esc2_none in E as (N1 & N2 & _).
    destruct (N.ltb_spec (code c) 32) as [L|L].
    + destruct (hex2_hex c) as (H1 & H2 & H3).
      change (esc_u c ++ escaped text) with
        (BS :: "u"%char :: "0"%char :: "0"%char :: hex_upper (code c / 16) ::
           hex_upper (code c mod 16) :: escaped text).
      apply bt_u.
      * cbn [forallb]. rewrite H1, H2. reflexivity.
      * change (hexval "0") with 0%N. lia.
      * lia.
      * assumption.
    + cbn [app]. apply bt_plain; auto.
Qed.

Lemma body_text_body b t : body_text b t -> json_body b.
Proof.
  induction 1; try (constructor; auto; fail).
  - apply jb_esc; auto. apply (in_map fst) in H. exact H.
Qed.
Lemma escaped_body text : json_body (escaped text).
Proof. eapply body_text_body, escaped_text. Qed.

(** ** White space *)
Lemma json_ws_isspace c : json_ws c = true -> isspace c = true.
Proof.
  assert (forall c, implb (json_ws c) (isspace c) = true) as H
    by (apply byte_forall; vm_compute; reflexivity).
  specialize (H c). destruct (json_ws c); [exact (fun _ => H)|discriminate].
Qed.
Lemma skip_ws_app w s : all_ws w -> skip_ws (w ++ s) = skip_ws s.
Proof.
  unfold all_ws, skip_ws. induction w as [|c w IH]; intros H; [reflexivity|].
  simpl in H. apply andb_true_iff in H as [H1 H2]. cbn [app span].
  rewrite json_ws_isspace by assumption. specialize (IH H2).
  destruct (span isspace (w ++ s)). exact IH.
Qed.
Lemma skip_ws_cons c s : isspace c = false -> skip_ws (c :: s) = c :: s.
Proof. intros H. unfold skip_ws; cbn. rewrite H. reflexivity. Qed.
Lemma skip_ws_nil : skip_ws [] = [].
Proof. reflexivity. Qed.
Lemma skip_ws_spec s : exists w, s = w ++ skip_ws s /\ forallb isspace w = true /\
  (forall c r, skip_ws s = c :: r -> isspace c = false).
Proof.
  unfold skip_ws. destruct (span isspace s) as [a b] eqn:E. exists a. cbn [snd].
  split; [apply span_app in E; assumption|]. split; [eapply span_all; eassumption|].
  apply span_stop in E. intros c r ->. assumption.
Qed.
Lemma skip_ws_len s : length (skip_ws s) <= length s.
Proof.
  destruct (skip_ws_spec s) as (w & E & _). apply (f_equal (@length ascii)) in E.
  rewrite app_length in E. lia.
Qed.
Lemma skip_ws_idem s : skip_ws (skip_ws s) = skip_ws s.
Proof.
  destruct (skip_ws_spec s) as (w & _ & _ & H). destruct (skip_ws s) as [|c r] eqn:E; [reflexivity|].
  apply skip_ws_cons. eapply H; reflexivity.
Qed.

(** ** Reading strings *)
Lemma jps_total : forall fuel cap out oob p, length p < fuel ->
  exists r q, jps_loop fuel cap out oob p = Some (r, q) /\ length q <= length p /\
    (r <> None -> length q < length p).
Proof.
  induction fuel as [|fuel IH]; intros cap out oob p H; [lia|].
  cbn [jps_loop]. destruct p as [|c p1].
  - exists None, []. repeat split; auto. congruence.
  - cbn [length] in H. destruct (ceq c DQ); [eexists _, p1; repeat split; cbn; lia|].
    assert (ST : forall cp o ob p', length p' <= length p1 ->
      exists r q, jps_loop fuel cp o ob p' = Some (r, q) /\ length q <= S (length p1) /\
        (r <> None -> length q < S (length p1))).
    { intros cp o ob p' L. destruct (IH cp o ob p') as (r & q & E & L1 & L2); [lia|].
      exists r, q. split; [exact E|]. split; [lia|]. intros X. specialize (L2 X). lia. }
    destruct (ceq c BS).
    + destruct p1 as [|e p2].
      * exists None, []. repeat split; cbn; auto; try lia; congruence.
      * destruct (ceq e "u").
        -- apply ST. rewrite skipn_length. cbn; lia.
        -- destruct (ceq (unescape e) "?"); apply ST; cbn; lia.
    + apply ST. lia.
Qed.

Lemma jps_loop_body : forall b fuel cap out rest,
  json_body b -> length b < fuel -> length out < cap -> 1 < cap ->
  exists t, jps_loop fuel cap out false (b ++ DQ :: rest) = Some (Some (out ++ t, false), rest).
Proof.
  intros b fuel cap out rest H. revert fuel cap out.
  induction H as [|c b H1 H2 H3 H IH|e b He H IH|h1 h2 h3 h4 b Hh H IH];
    intros fuel cap out Hf Hc Hc1; (destruct fuel as [|fuel]; [cbn in Hf; lia|]);
    cbn [app jps_loop].
  - rewrite ceq_refl. exists []. rewrite app_nil_r.
    destruct (Nat.leb_spec cap (length out)); [lia|reflexivity].
  - apply ceq_neq in H2, H3. rewrite H2, H3. cbn [length] in Hf.
    set (cap' := if cap <=? length out + 1 then cap * 2 else cap).
    assert (length out + 1 < cap') by (unfold cap'; destruct (Nat.leb_spec cap (length out + 1)); lia).
    cbn [orb]. destruct (Nat.leb_spec cap' (length out)); [lia|].
    destruct (IH fuel cap' (out ++ [c])) as (t & E); try (rewrite ?app_length; cbn [length]; lia).
    exists (c :: t). rewrite E, <- app_assoc. reflexivity.
  - change (ceq BS DQ) with false. change (ceq BS BS) with true. cbn iota.
    cbn [length] in Hf.
    set (cap' := if cap <=? length out + 1 then cap * 2 else cap).
    assert (length out + 1 < cap') by (unfold cap'; destruct (Nat.leb_spec cap (length out + 1)); lia).
    cbn [orb]. destruct (Nat.leb_spec cap' (length out)); [lia|].
    assert (ceq e "u" = false /\ ceq (unescape e) "?" = false) as [-> ->].
    { cbn in He. intuition (subst; split; reflexivity). }
    destruct (IH fuel cap' (out ++ [unescape e])) as (t & E); try (rewrite ?app_length; cbn [length]; lia).
    exists (unescape e :: t). rewrite E, <- app_assoc. reflexivity.
  - change (ceq BS DQ) with false. change (ceq BS BS) with true. cbn iota.
    change (ceq "u" "u") with true. cbn iota. cbn [skipn].
    cbn [length] in Hf.
    set (cap' := if cap <=? length out + 1 then cap * 2 else cap).
    assert (length out + 1 < cap') by (unfold cap'; destruct (Nat.leb_spec cap (length out + 1)); lia).
    cbn [orb]. destruct (Nat.leb_spec cap' (length out)); [lia|].
    destruct (IH fuel cap' (out ++ ["?"%char])) as (t & E); try (rewrite ?app_length; cbn [length]; lia).
    exists ("?"%char :: t). rewrite E, <- app_assoc. reflexivity.
Qed.

(** Reading back what was escaped. *)
Definition seen_byte (c : ascii) : ascii := if lost_byte c then "?"%char else c.

Lemma jps_loop_escaped : forall t fuel cap out rest,
  length (escaped t) < fuel -> length out < cap -> 1 < cap ->
  jps_loop fuel cap out false (escaped t ++ DQ :: rest)
  = Some (Some (out ++ map seen_byte t, false), rest).
Proof.
  induction t as [|c t IH]; intros fuel cap out rest Hf Hc Hc1;
    (destruct fuel as [|fuel]; [cbn in Hf; lia|]).
  - cbn. rewrite app_nil_r. destruct (Nat.leb_spec cap (length out)); [lia|reflexivity].
  - cbn [escaped flat_map map]. fold (escaped t). rewrite <- app_assoc.
    cbn [escaped flat_map] in Hf. fold (escaped t) in Hf. rewrite app_length in Hf.
    set (cap' := if cap <=? length out + 1 then cap * 2 else cap).
    assert (length out + 1 < cap') by (unfold cap'; destruct (Nat.leb_spec cap (length out + 1)); lia).
    replace (out ++ seen_byte c :: map seen_byte t) with ((out ++ [seen_byte c]) ++ map seen_byte t)
      by (rewrite <- app_assoc; reflexivity).
    assert (G : forall d, 0 < length (esc_of c) ->
      jps_loop fuel cap' (out ++ [d]) (false || (cap' <=? length out)) (escaped t ++ DQ :: rest)
      = Some (Some ((out ++ [d]) ++ map seen_byte t, false), rest)).
    { intros d _. cbn [orb]. destruct (Nat.leb_spec cap' (length out)); [lia|].
      apply IH; try (rewrite ?app_length; cbn [length]; lia).
      assert (0 < length (esc_of c)); [|lia].
      unfold esc_of. destruct (esc2 c); [cbn; lia|]. destruct (code c <? 32)%N; cbn; lia. }
    unfold esc_of. unfold esc_of in G. destruct (esc2 c) as [e|] eqn:E.
    + cbn [app jps_loop]. change (ceq BS DQ) with false. change (ceq BS BS) with true. cbn iota.
      assert (ceq e "u" = false /\ unescape e = c /\ c <> "?"%char /\ seen_byte c = c) as (-> & -> & N & S).
      { clear -E. unfold esc2 in E.
        repeat match type of E with context [if ceq c ?x then _ else _] =>
          destruct (ceq c x) eqn:?X end; try discriminate;
        match goal with H : ceq c _ = true |- _ => apply ceq_eq in H; subst c end;
        injection E as <-; repeat split; discriminate. }
      apply ceq_neq in N. rewrite N. rewrite S. apply G. cbn; lia.
    + apply esc2_none in E as (N1 & N2 & N3 & N4 & N5).
      unfold seen_byte, lost_byte. apply ceq_neq in N3, N4, N5. rewrite N3, N4, N5.
      destruct (N.ltb_spec (code c) 32) as [L|L].
      * change (esc_u c ++ escaped t ++ DQ :: rest) with
          (BS :: "u"%char :: "0"%char :: "0"%char :: hex_upper (code c / 16) ::
             hex_upper (code c mod 16) :: escaped t ++ DQ :: rest).
        cbn [jps_loop]. change (ceq BS DQ) with false. change (ceq BS BS) with true.
        change (ceq "u" "u") with true. cbn iota. cbn [skipn andb orb negb].
        apply G. cbn; lia.
      * cbn [app jps_loop]. apply ceq_neq in N1, N2. rewrite N1, N2. cbn [andb].
        apply G. cbn; lia.
Qed.

Lemma parse_string_escaped w t rest : all_ws w ->
  json_parse_string_full (w ++ quoted t ++ rest) = Some (Some (map seen_byte t, false), rest).
Proof.
  intros W. unfold json_parse_string_full. rewrite skip_ws_app by assumption.
  rewrite quoted_ok. cbn [app]. rewrite skip_ws_cons by reflexivity. rewrite ceq_refl.
  rewrite <- app_assoc. cbn [app]. apply jps_loop_escaped; try (cbn; lia).
  rewrite app_length; cbn [length]; lia.
Qed.

Lemma parse_string_body w b rest : all_ws w -> json_body b ->
  exists t, json_parse_string (w ++ (DQ :: b ++ [DQ]) ++ rest) = (Some t, rest).
Proof.
  intros W H. unfold json_parse_string, json_parse_string_full. rewrite skip_ws_app by assumption.
  cbn [app]. rewrite skip_ws_cons by reflexivity. rewrite ceq_refl.
  rewrite <- app_assoc. cbn [app].
  destruct (jps_loop_body b (S (length (b ++ DQ :: rest))) 64 [] rest) as (t & E); auto;
    try (cbn; lia); [rewrite app_length; cbn [length]; lia|].
  rewrite E. exists t. reflexivity.
Qed.

Lemma seen_clean t : clean t <-> map seen_byte t = t.
Proof.
  unfold clean. induction t as [|c t IH]; [cbn; tauto|]. cbn [forallb map].
  rewrite andb_true_iff, IH, negb_true_iff.
  split.
  - intros [H1 H2]. rewrite H2. unfold seen_byte. rewrite H1. reflexivity.
  - intros H. injection H as H1 H2. split; [|assumption].
    unfold seen_byte in H1. destruct (lost_byte c) eqn:E; [|reflexivity].
    subst c. vm_compute in E. discriminate.
Qed.

Lemma parse_string_len s r q : json_parse_string s = (r, q) ->
  length q <= length s /\ (r <> None -> length q < length s).
Proof.
  unfold json_parse_string, json_parse_string_full.
  pose proof (skip_ws_len s) as L. destruct (skip_ws s) as [|c p]; cbn [length] in L.
  - intros [= <- <-]. split; [cbn; lia|congruence].
  - destruct (ceq c DQ).
    + destruct (jps_total (S (length p)) 64 [] false p) as (r' & q' & E & L1 & L2); [lia|].
      rewrite E. destruct r' as [[o b]|]; intros [= <- <-]; split; try lia; try congruence.
    + intros [= <- <-]. cbn [length]. split; [lia|congruence].
Qed.

Lemma match_char_ok ch w rest : all_ws w -> isspace ch = false ->
  match_char ch (w ++ ch :: rest) = (true, rest).
Proof.
  intros W H. unfold match_char. rewrite skip_ws_app by assumption.
  rewrite skip_ws_cons by assumption. rewrite ceq_refl. reflexivity.
Qed.
Lemma match_char_len ch s r q : match_char ch s = (r, q) ->
  length q <= length s /\ (r = true -> length q < length s).
Proof.
  unfold match_char. pose proof (skip_ws_len s) as L. destruct (skip_ws s) as [|c p]; cbn [length] in L.
  - intros [= <- <-]. cbn; split; [lia|discriminate].
  - destruct (ceq c ch); intros [= <- <-]; cbn [length]; split; try lia; discriminate.
Qed.

(** ** Skipping well-formed values *)
Scheme json_ind3 := Induction for json Sort Prop
  with elements_ind3 := Induction for elements Sort Prop
  with members_ind3 := Induction for members Sort Prop.
Combined Scheme json_mutind from json_ind3, elements_ind3, members_ind3.

Definition tokc (c : ascii) : bool := isdigit c || isalpha c || ceq c "-" || ceq c "+" || ceq c ".".

Lemma tokc_token c : tokc c = true ->
  token_char c = true /\ isspace c = false /\ ceq c DQ = false /\ ceq c "{" = false /\
  ceq c "[" = false /\ ceq c "]" = false /\ ceq c "}" = false.
Proof.
  assert (forall c, implb (tokc c) (token_char c && negb (isspace c) && negb (ceq c DQ) &&
    negb (ceq c "{") && negb (ceq c "[") && negb (ceq c "]") && negb (ceq c "}")) = true) as H
    by (apply byte_forall; vm_compute; reflexivity).
  specialize (H c). intros T. rewrite T in H. cbn [implb] in H.
  rewrite !andb_true_iff, !negb_true_iff in H. tauto.
Qed.

Lemma digits_tokc s : forallb isdigit s = true -> forallb tokc s = true.
Proof.
  intros H. rewrite forallb_forall in *. intros c I. unfold tokc. rewrite (H c I). reflexivity.
Qed.

Lemma number_tokc s : json_number s -> s <> [] /\ forallb tokc s = true.
Proof.
  intros (sg & i & fr & ex & -> & Hs & [[Hi1 Hi2] _] & Hf & He). split.
  - destruct Hs as [->| ->]; [|discriminate]. destruct i; [congruence|discriminate].
  - rewrite !forallb_app. rewrite (digits_tokc i Hi2).
    assert (forallb tokc sg = true) as -> by (destruct Hs as [->| ->]; reflexivity).
    assert (forallb tokc fr = true) as ->.
    { destruct Hf as [->|(ds & -> & _ & Hd)]; [reflexivity|]. cbn [forallb].
      rewrite (digits_tokc ds Hd). reflexivity. }
    destruct He as [->|(e & s & ds & -> & He1 & He2 & _ & Hd)]; [reflexivity|].
    cbn [forallb]. rewrite forallb_app, (digits_tokc ds Hd).
    cbn in He1, He2. destruct He1 as [<-|[<-|[]]]; destruct He2 as [<-|[<-|[<-|[]]]]; reflexivity.
Qed.

Lemma literal_tokc s : In s [B "true"; B "false"; B "null"] -> s <> [] /\ forallb tokc s = true.
Proof. cbn. intros [<-|[<-|[<-|[]]]]; split; try discriminate; reflexivity. Qed.

Lemma value_end_token rest : value_end rest ->
  match rest with [] => True | c :: _ => token_char c = false end.
Proof.
  intros H. destruct rest as [|c r]; [trivial|].
  assert (forall c, implb (json_ws c || ceq c "," || ceq c "]" || ceq c "}") (negb (token_char c)) = true) as X
    by (apply byte_forall; vm_compute; reflexivity).
  specialize (X c). apply negb_true_iff.
  destruct (json_ws c || ceq c "," || ceq c "]" || ceq c "}") eqn:E; [exact X|].
  exfalso. rewrite !orb_false_iff, !ceq_neq in E.
  destruct (H c r eq_refl) as [H1|H1]; [intuition congruence|]. cbn in H1. intuition congruence.
Qed.

Lemma span_token v rest : forallb token_char v = true -> value_end rest ->
  span token_char (v ++ rest) = (v, rest).
Proof.
  intros H E. apply value_end_token in E. induction v as [|c v IH].
  - destruct rest as [|c r]; [reflexivity|]. cbn. rewrite E. reflexivity.
  - simpl in H. apply andb_true_iff in H as [H1 H2]. cbn. rewrite H1, IH by assumption. reflexivity.
Qed.

(** How a value begins. *)
Definition starts_value (v : str) : Prop :=
  exists c r, v = c :: r /\ isspace c = false /\ ceq c "]" = false /\ ceq c "}" = false.
Lemma json_starts v : json v -> starts_value v.
Proof.
  intros H. destruct H.
  - eexists _, _; repeat split; reflexivity.
  - apply number_tokc in H as [N H]. destruct s as [|c r]; [congruence|].
    simpl in H. apply andb_true_iff in H as [H _]. apply tokc_token in H as (_ & H1 & _ & _ & _ & H2 & H3).
    exists c, r. auto.
  - apply literal_tokc in H as [N H]. destruct s as [|c r]; [congruence|].
    simpl in H. apply andb_true_iff in H as [H _]. apply tokc_token in H as (_ & H1 & _ & _ & _ & H2 & H3).
    exists c, r. auto.
  - eexists _, _; repeat split; reflexivity.
  - eexists _, _; repeat split; reflexivity.
  - eexists _, _; repeat split; reflexivity.
  - eexists _, _; repeat split; reflexivity.
Qed.

Lemma skip_ws_value w v rest : all_ws w -> starts_value v ->
  skip_ws (w ++ v ++ rest) = v ++ rest.
Proof.
  intros W (c & r & -> & H & _). rewrite skip_ws_app by assumption. cbn [app].
  apply skip_ws_cons. assumption.
Qed.

Lemma value_end_ws w rest : all_ws w -> (w <> [] \/ value_end rest) -> value_end (w ++ rest).
Proof.
  intros W H. destruct w as [|d w].
  - destruct H as [H|H]; [congruence|exact H].
  - intros c r [= <- _]. left. unfold all_ws in W. simpl in W. apply andb_true_iff in W as [W _]. exact W.
Qed.
Lemma value_end_char c rest : In c (B ",]}") -> value_end (c :: rest).
Proof. intros H x r [= <- _]. right; exact H. Qed.

Lemma token_case fuel v rest : v <> [] -> forallb tokc v = true -> value_end rest -> 1 <= fuel ->
  skip_value fuel (v ++ rest) = Some (true, rest).
Proof.
  intros N T E F. destruct fuel as [|fuel]; [lia|]. cbn [skip_value].
  destruct v as [|c v]; [congruence|].
  assert (TT : forallb token_char (c :: v) = true).
  { rewrite forallb_forall in *. intros x I. apply tokc_token, T, I. }
  simpl in T. apply andb_true_iff in T as [T1 T2].
  pose proof (tokc_token c T1) as (_ & H1 & H2 & H3 & H4 & _).
  cbn [app]. rewrite skip_ws_cons by assumption. rewrite H2, H3, H4.
  change (c :: v ++ rest) with ((c :: v) ++ rest). rewrite span_token by assumption. reflexivity.
Qed.

Lemma at_head v rest : starts_value v ->
  ceq (at_ (v ++ rest) 0) "]" = false /\ ceq (at_ (v ++ rest) 0) "}" = false.
Proof. intros (c & r & -> & _ & H1 & H2). auto. Qed.

Lemma skip_array_step f s :
  skip_array (S f) s =
    let s1 := skip_ws s in
    if ceq (at_ s1 0) "]" then Some (true, skipn 1 s1)
    else match skip_value f s1 with
         | None => None
         | Some (false, s4) => Some (false, s4)
         | Some (true, s4) =>
             let s5 := skip_ws s4 in
             if ceq (at_ s5 0) "," then skip_array f (skipn 1 s5)
             else if ceq (at_ s5 0) "]" then skip_array f s5
             else Some (true, s5)
         end.
Proof. reflexivity. Qed.
Lemma skip_object_step f s :
  skip_object (S f) s =
    let s1 := skip_ws s in
    if ceq (at_ s1 0) "}" then Some (true, skipn 1 s1)
    else match json_parse_string s1 with
         | (None, s2) => Some (false, s2)
         | (Some _, s2) =>
             match match_char ":" s2 with
             | (false, s3) => Some (false, s3)
             | (true, s3) =>
                 match skip_value f s3 with
                 | None => None
                 | Some (false, s4) => Some (false, s4)
                 | Some (true, s4) =>
                     let s5 := skip_ws s4 in
                     if ceq (at_ s5 0) "," then skip_object f (skipn 1 s5)
                     else if ceq (at_ s5 0) "}" then skip_object f s5
                     else Some (true, s5)
                 end
             end
         end.
Proof. reflexivity. Qed.

Lemma skip_array_end f w rest : all_ws w -> 1 <= f ->
  skip_array f (w ++ "]"%char :: rest) = Some (true, rest).
Proof.
  intros W F. destruct f as [|f]; [lia|]. rewrite skip_array_step. cbv zeta.
  rewrite skip_ws_app, skip_ws_cons by (assumption || reflexivity). reflexivity.
Qed.
Lemma skip_object_end f w rest : all_ws w -> 1 <= f ->
  skip_object f (w ++ "}"%char :: rest) = Some (true, rest).
Proof.
  intros W F. destruct f as [|f]; [lia|]. rewrite skip_object_step. cbv zeta.
  rewrite skip_ws_app, skip_ws_cons by (assumption || reflexivity). reflexivity.
Qed.

Lemma json_len v : json v -> 1 <= length v.
Proof. intros H. apply json_starts in H as (c & r & -> & _). cbn; lia. Qed.

Lemma skip_json_ok :
  (forall v, json v -> forall fuel rest, length v <= fuel -> value_end rest ->
     skip_value fuel (v ++ rest) = Some (true, rest)) /\
  (forall es, elements es -> forall fuel rest, length es < fuel ->
     skip_array fuel (es ++ "]"%char :: rest) = Some (true, rest)) /\
  (forall ms, members ms -> forall fuel rest, length ms < fuel ->
     skip_object fuel (ms ++ "}"%char :: rest) = Some (true, rest)).
Proof.
  apply json_mutind.
  - intros b H fuel rest F _. destruct fuel as [|fuel]; [cbn in F; lia|]. cbn [skip_value].
    cbn [app]. rewrite skip_ws_cons by reflexivity. rewrite ceq_refl.
    destruct (parse_string_body [] b rest eq_refl H) as (t & E). cbn [app] in E. rewrite E. reflexivity.
  - intros s H fuel rest F E. apply number_tokc in H as [N H]. apply token_case; auto.
    destruct s; [congruence|cbn in F; lia].
  - intros s H fuel rest F E. apply literal_tokc in H as [N H]. apply token_case; auto.
    destruct s; [congruence|cbn in F; lia].
  - intros w W fuel rest F _. rewrite !app_length in F. cbn [length B list_ascii_of_string] in F.
    destruct fuel as [|fuel]; [lia|]. cbn [skip_value B list_ascii_of_string app].
    rewrite skip_ws_cons by reflexivity. cbn -[skip_array]. rewrite <- app_assoc. cbn [app].
    apply skip_array_end; [assumption|lia].
  - intros es H IH fuel rest F _. rewrite !app_length in F. cbn [length B list_ascii_of_string] in F.
    destruct fuel as [|fuel]; [lia|]. cbn [skip_value B list_ascii_of_string app].
    rewrite skip_ws_cons by reflexivity. cbn -[skip_array]. rewrite <- app_assoc. cbn [app].
    apply IH. lia.
  - intros w W fuel rest F _. rewrite !app_length in F. cbn [length B list_ascii_of_string] in F.
    destruct fuel as [|fuel]; [lia|]. cbn [skip_value B list_ascii_of_string app].
    rewrite skip_ws_cons by reflexivity. cbn -[skip_object]. rewrite <- app_assoc. cbn [app].
    apply skip_object_end; [assumption|lia].
  - intros es H IH fuel rest F _. rewrite !app_length in F. cbn [length B list_ascii_of_string] in F.
    destruct fuel as [|fuel]; [lia|]. cbn [skip_value B list_ascii_of_string app].
    rewrite skip_ws_cons by reflexivity. cbn -[skip_object]. rewrite <- app_assoc. cbn [app].
    apply IH. lia.
  - intros w1 v w2 W1 H IH W2 fuel rest F. rewrite !app_length in F.
    pose proof (json_len v H). destruct fuel as [|fuel]; [lia|].
    rewrite skip_array_step. cbv zeta. rewrite <- !app_assoc.
    rewrite skip_ws_value by (assumption || apply json_starts, H).
    destruct (at_head v (w2 ++ "]"%char :: rest) (json_starts v H)) as [-> _].
    rewrite IH; [|lia|apply value_end_ws; [assumption|right; apply value_end_char; cbn; tauto]].
    rewrite skip_ws_app, skip_ws_cons by (assumption || reflexivity).
    change (ceq (at_ ("]"%char :: rest) 0) ",") with false. cbn -[skip_array].
    apply (skip_array_end fuel [] rest); [reflexivity|lia].
  - intros w1 v w2 es W1 H IH W2 He IHe fuel rest F. rewrite !app_length in F. cbn [length B list_ascii_of_string] in F.
    pose proof (json_len v H). destruct fuel as [|fuel]; [lia|].
    rewrite skip_array_step. cbv zeta. rewrite <- !app_assoc.
    rewrite skip_ws_value by (assumption || apply json_starts, H).
    match goal with |- context [at_ (v ++ ?r) 0] => destruct (at_head v r (json_starts v H)) as [-> _] end.
    cbn [B list_ascii_of_string app].
    rewrite IH; [|lia|apply value_end_ws; [assumption|right; apply value_end_char; cbn; tauto]].
    rewrite skip_ws_app, skip_ws_cons by (assumption || reflexivity).
    cbn -[skip_array]. apply IHe. lia.
  - intros w1 k w2 w3 v w4 W1 K W2 W3 H IH W4 fuel rest F.
    rewrite !app_length in F. cbn [length B list_ascii_of_string] in F. rewrite app_length in F. cbn [length] in F.
    pose proof (json_len v H). destruct fuel as [|fuel]; [lia|].
    rewrite skip_object_step. cbv zeta. rewrite <- !app_assoc.
    rewrite (skip_ws_app w1) by assumption. cbn [app]. rewrite skip_ws_cons by reflexivity.
    change (ceq (at_ (DQ :: (k ++ [DQ]) ++ w2 ++ B ":" ++ w3 ++ v ++ w4 ++ "}"%char :: rest) 0) "}") with false.
    cbn iota.
    destruct (parse_string_body [] k (w2 ++ B ":" ++ w3 ++ v ++ w4 ++ "}"%char :: rest) eq_refl K) as (t & E).
    cbn [app] in E. rewrite E. clear E. cbn [B list_ascii_of_string app].
    rewrite match_char_ok by (assumption || reflexivity).
    assert (skip_value fuel (w3 ++ v ++ w4 ++ "}"%char :: rest) = Some (true, w4 ++ "}"%char :: rest)) as ->.
    { rewrite <- (IH fuel (w4 ++ "}"%char :: rest)); [|lia|apply value_end_ws; [assumption|right; apply value_end_char; cbn; tauto]].
      destruct fuel as [|f]; [lia|]. cbn [skip_value].
      rewrite skip_ws_value by (assumption || apply json_starts, H).
      replace (skip_ws (v ++ w4 ++ "}"%char :: rest)) with (v ++ w4 ++ "}"%char :: rest)
        by (symmetry; apply (skip_ws_value [] v); [reflexivity | apply json_starts, H]). reflexivity. }
    rewrite skip_ws_app, skip_ws_cons by (assumption || reflexivity).
    change (ceq (at_ ("}"%char :: rest) 0) ",") with false. cbn -[skip_object].
    apply (skip_object_end fuel [] rest); [reflexivity|lia].
  - intros w1 k w2 w3 v w4 ms W1 K W2 W3 H IH W4 Hm IHm fuel rest F.
    rewrite !app_length in F. cbn [length B list_ascii_of_string] in F. rewrite app_length in F. cbn [length] in F.
    pose proof (json_len v H). destruct fuel as [|fuel]; [lia|].
    rewrite skip_object_step. cbv zeta. rewrite <- !app_assoc.
    rewrite (skip_ws_app w1) by assumption. cbn [app]. rewrite skip_ws_cons by reflexivity.
    match goal with |- context [ceq (at_ (DQ :: ?x) 0) "}"] =>
      change (ceq (at_ (DQ :: x) 0) "}") with false end.
    cbn iota. cbn [B list_ascii_of_string app].
    destruct (parse_string_body [] k (w2 ++ ":"%char :: w3 ++ v ++ w4 ++ ","%char :: ms ++ "}"%char :: rest) eq_refl K) as (t & E).
    cbn [app] in E. rewrite E. clear E. cbn [B list_ascii_of_string app].
    rewrite match_char_ok by (assumption || reflexivity).
    assert (skip_value fuel (w3 ++ v ++ w4 ++ ","%char :: ms ++ "}"%char :: rest) = Some (true, w4 ++ ","%char :: ms ++ "}"%char :: rest)) as ->.
    { rewrite <- (IH fuel (w4 ++ ","%char :: ms ++ "}"%char :: rest)); [|lia|apply value_end_ws; [assumption|right; apply value_end_char; cbn; tauto]].
      destruct fuel as [|f]; [lia|]. cbn [skip_value].
      rewrite skip_ws_value by (assumption || apply json_starts, H).
      replace (skip_ws (v ++ w4 ++ ","%char :: ms ++ "}"%char :: rest)) with (v ++ w4 ++ ","%char :: ms ++ "}"%char :: rest)
        by (symmetry; apply (skip_ws_value [] v); [reflexivity | apply json_starts, H]). reflexivity. }
    rewrite skip_ws_app, skip_ws_cons by (assumption || reflexivity).
    cbn -[skip_object]. apply IHm. lia.
Qed.

Lemma json_skip_ok v rest : json v -> value_end rest ->
  json_skip_value (v ++ rest) = Some (true, rest).
Proof.
  intros H E. unfold json_skip_value. apply skip_json_ok; auto.
  unfold skip_fuel. rewrite app_length. lia.
Qed.
