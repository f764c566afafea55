(** What the JSON writer produces is JSON. *)
From Coq Require Import Decimal DecimalString DecimalFacts DecimalNat.
From Verif Require Import Base BaseL M_Encode M_Json S_Json L_Json.

Section Induction.
  Variable P : inl -> Prop.
  Hypothesis Ht : forall t, P (IText t).
  Hypothesis Hs : P ISoft.
  Hypothesis Hl : P ILine.
  Hypothesis Hc : forall t, P (ICode t).
  Hypothesis He : forall l, Forall P l -> P (IEmph l).
  Hypothesis Hg : forall l, Forall P l -> P (IStrong l).
  Hypothesis Hk : forall u t l, Forall P l -> P (ILink u t l).
  Hypothesis Hi : forall u t l, Forall P l -> P (IImage u t l).
  Hypothesis Hh : forall t, P (IHtml t).
  Hypothesis Ho : forall t, P (IOther t).
  Fixpoint inl_ind2 (n : inl) : P n :=
    let all := fix all (l : list inl) : Forall P l :=
      match l with [] => Forall_nil _ | x :: l' => Forall_cons _ (inl_ind2 x) (all l') end in
    match n with
    | IText t => Ht t | ISoft => Hs | ILine => Hl | ICode t => Hc t
    | IEmph l => He l (all l) | IStrong l => Hg l (all l)
    | ILink u t l => Hk u t l (all l) | IImage u t l => Hi u t l (all l)
    | IHtml t => Hh t | IOther t => Ho t
    end.
End Induction.

Section BInduction.
  Variable P : blk -> Prop.
  Hypothesis Hp : forall l, P (BPara l).
  Hypothesis Hh : forall n l, P (BHead n l).
  Hypothesis Hr : P BRule.
  Hypothesis Ht : forall t, P (BHtml t).
  Hypothesis Hc : forall g t, P (BCode g t).
  Hypothesis Hl : forall o s its, Forall (Forall P) its -> P (BList o s its).
  Hypothesis Hq : forall l, Forall P l -> P (BQuote l).
  Hypothesis Ho : forall t, P (BOther t).
  Fixpoint blk_ind2 (n : blk) : P n :=
    let all := fix all (l : list blk) : Forall P l :=
      match l with [] => Forall_nil _ | x :: l' => Forall_cons _ (blk_ind2 x) (all l') end in
    let alls := fix alls (l : list (list blk)) : Forall (Forall P) l :=
      match l with [] => Forall_nil _ | x :: l' => Forall_cons _ (all x) (alls l') end in
    match n with
    | BPara l => Hp l | BHead n l => Hh n l | BRule => Hr | BHtml t => Ht t
    | BCode g t => Hc g t | BList o s its => Hl o s its (alls its)
    | BQuote l => Hq l (all l) | BOther t => Ho t
    end.
End BInduction.

Lemma join_cons sep x l : l <> [] -> join sep (x :: l) = x ++ sep ++ join sep l.
Proof. destruct l; [congruence|reflexivity]. Qed.

Lemma quoted_json t : json (quoted t).
Proof. rewrite quoted_ok. constructor. apply escaped_body. Qed.

Lemma elements_join l : l <> [] -> Forall json l -> elements (join (B ",") l).
Proof.
  intros N H. induction H as [|x l Hx Hl IH]; [congruence|].
  destruct l as [|y l].
  - change (join (B ",") [x]) with x. rewrite <- (app_nil_r x). apply (e_one [] x []); [reflexivity|assumption|reflexivity].
  - rewrite join_cons by discriminate. apply (e_more [] x []); try reflexivity; [assumption|].
    apply IH. discriminate.
Qed.

Lemma array_join l : Forall json l -> json (B "[" ++ join (B ",") l ++ B "]").
Proof.
  intros H. destruct l as [|x l].
  - apply (j_array0 []). reflexivity.
  - apply j_array, elements_join; [discriminate|assumption].
Qed.

Lemma obj_tc tag v : json_body tag -> json v ->
  json (B "{""t"":""" ++ tag ++ B """,""c"":" ++ v ++ B "}").
Proof.
  intros T V.
  assert (members (B """t"":""" ++ tag ++ B """,""c"":" ++ v)) as M.
  { pose proof (m_more [] (B "t") [] [] (DQ :: tag ++ [DQ]) [] (B """c"":" ++ v)) as X.
    assert (json_body (B "t")) as Bt by (repeat (constructor; [vm_compute; congruence|discriminate|discriminate|]); constructor).
    assert (json_body (B "c")) as Bc by (repeat (constructor; [vm_compute; congruence|discriminate|discriminate|]); constructor).
    specialize (X eq_refl Bt eq_refl eq_refl (j_string _ T) eq_refl).
    assert (members (B """c"":" ++ v)) as Y.
    { pose proof (m_one [] (B "c") [] [] v [] eq_refl Bc eq_refl eq_refl V eq_refl) as Y.
      rewrite app_nil_r in Y. exact Y. }
    specialize (X Y). cbn [B list_ascii_of_string app] in *.
    rewrite <- ?app_assoc in X. cbn [app] in X. exact X. }
  apply j_object in M.
  rewrite <- !app_assoc in M. exact M.
Qed.

Ltac fall := repeat (apply Forall_cons; [auto|]); apply Forall_nil.

Lemma attr_json : json attr_empty.
Proof.
  assert (json (quoted [])) as Q by apply quoted_json.
  assert (json (B "[]")) as E by (apply (j_array0 []); reflexivity).
  apply (array_join [quoted []; B "[]"; B "[]"]). fall.
Qed.

Ltac body := repeat (constructor; [vm_compute; congruence|discriminate|discriminate|]); constructor.

Lemma html_json : json (B """html""").
Proof. apply (j_string (B "html")). body. Qed.

#[local] Hint Resolve quoted_json attr_json html_json : core.

Lemma inline_json n : json (write_inline n).
Proof.
  induction n using inl_ind2.
  - apply (obj_tc (B "Str")); [body|apply quoted_json].
  - apply (obj_tc (B "SoftBreak") (B "[]")); [body|apply (j_array0 []); reflexivity].
  - apply (obj_tc (B "LineBreak") (B "[]")); [body|apply (j_array0 []); reflexivity].
  - cbn [write_inline].
    pose proof (obj_tc (B "Code") (B "[" ++ join (B ",") [attr_empty; quoted t] ++ B "]")) as X.
    cbn [join] in X. repeat rewrite <- app_assoc in X. apply X; [body|].
    pose proof (array_join [attr_empty; quoted t]) as Y. cbn [join] in Y.
    repeat rewrite <- app_assoc in Y. apply Y. fall.
  - cbn [write_inline].
    assert (json (write_inlines l)) as J
      by (apply array_join; rewrite Forall_map; exact H).
    pose proof (array_join [write_inlines l]) as Y. cbn [join] in Y.
    pose proof (obj_tc (B "Emph") _ ltac:(body) (Y ltac:(fall))) as X.
    unfold write_inlines in X. repeat rewrite <- app_assoc in X.
    repeat rewrite <- app_assoc. exact X.
  - cbn [write_inline].
    assert (json (write_inlines l)) as J
      by (apply array_join; rewrite Forall_map; exact H).
    pose proof (array_join [write_inlines l]) as Y. cbn [join] in Y.
    pose proof (obj_tc (B "Strong") _ ltac:(body) (Y ltac:(fall))) as X.
    unfold write_inlines in X. repeat rewrite <- app_assoc in X.
    repeat rewrite <- app_assoc. exact X.
  - cbn [write_inline].
    assert (json (write_inlines l)) as J
      by (apply array_join; rewrite Forall_map; exact H).
    pose proof (array_join [quoted u; quoted t] ltac:(fall)) as T.
    pose proof (array_join [attr_empty; write_inlines l; B "[" ++ join (B ",") [quoted u; quoted t] ++ B "]"]) as Y.
    pose proof (obj_tc (B "Link") _ ltac:(body)
      (Y ltac:(fall))) as X.
    cbn [join] in X. unfold write_inlines in X. repeat rewrite <- app_assoc in X.
    repeat rewrite <- app_assoc. exact X.
  - cbn [write_inline].
    assert (json (write_inlines l)) as J
      by (apply array_join; rewrite Forall_map; exact H).
    pose proof (array_join [quoted u; quoted t] ltac:(fall)) as T.
    pose proof (array_join [attr_empty; write_inlines l; B "[" ++ join (B ",") [quoted u; quoted t] ++ B "]"]) as Y.
    pose proof (obj_tc (B "Image") _ ltac:(body)
      (Y ltac:(fall))) as X.
    cbn [join] in X. unfold write_inlines in X. repeat rewrite <- app_assoc in X.
    repeat rewrite <- app_assoc. exact X.
  - cbn [write_inline].
    pose proof (array_join [B """html"""; quoted t] ltac:(fall)) as Y.
    pose proof (obj_tc (B "RawInline") _ ltac:(body) Y) as X.
    cbn [join] in X. repeat rewrite <- app_assoc in X. exact X.
  - apply (obj_tc (B "Str")); [body|apply quoted_json].
Qed.

Lemma inlines_json l : json (write_inlines l).
Proof. apply array_join. rewrite Forall_map. apply Forall_forall. intros. apply inline_json. Qed.

(** Decimal numbers. *)
Lemma dec_digits n : digits1 (dec n).
Proof.
  unfold dec, NilZero.string_of_uint. destruct (Nat.to_uint n) eqn:E;
    (split; [discriminate|]); try (rewrite <- E; apply uint_digits); try apply uint_digits; reflexivity.
Qed.

Lemma dec_int n : json_int (dec n).
Proof.
  split; [apply dec_digits|].
  unfold dec, NilZero.string_of_uint. intros r H.
  destruct (Nat.to_uint n) as [|d|d|d|d|d|d|d|d|d|d] eqn:E; cbn in H; try discriminate.
  - injection H as <-. reflexivity.
  - pose proof (DecimalNat.Unsigned.to_of (Nat.to_uint n)) as X.
    rewrite DecimalNat.Unsigned.of_to, E in X. unfold unorm in X. cbn [nzhead] in X.
    destruct (nzhead d) as [|d'|d'|d'|d'|d'|d'|d'|d'|d'|d'] eqn:Z; try discriminate.
    + injection X as ->. injection H as <-. reflexivity.
    + exfalso. eapply DecimalFacts.nzhead_nonzero; eassumption.
Qed.

Lemma dec_json n : json (dec n).
Proof.
  apply j_number. exists [], (dec n), [], []. rewrite !app_nil_r.
  repeat split; auto; try apply dec_int.
Qed.

(** Documents without code blocks and ordered lists. *)
Definition all_plain (l : list blk) : Prop := Forall plain_blocks l.
Lemma plain_quote l : plain_blocks (BQuote l) -> Forall plain_blocks l.
Proof. cbn [plain_blocks]. induction l as [|b l IH]; constructor; [tauto|apply IH; tauto]. Qed.
Lemma plain_list o s its : plain_blocks (BList o s its) ->
  o = false /\ Forall (Forall plain_blocks) its.
Proof.
  cbn [plain_blocks]. intros [-> H]. split; [reflexivity|].
  induction its as [|it its IH]; constructor; [|apply IH; tauto].
  destruct H as [H _]. induction it as [|b it IHi]; constructor; [tauto|apply IHi; tauto].
Qed.

Lemma block_json b : plain_blocks b -> json (write_block b).
Proof.
  induction b using blk_ind2; intros P.
  - apply (obj_tc (B "Para")); [body|apply inlines_json].
  - cbn [write_block].
    pose proof (array_join [dec (if n <=? 0 then 1 else n); attr_empty; write_inlines l]
      ltac:(pose proof (dec_json (if n <=? 0 then 1 else n)); pose proof (inlines_json l); fall)) as Y.
    pose proof (obj_tc (B "Header") _ ltac:(body) Y) as X.
    cbn [join] in X. repeat rewrite <- app_assoc in X. repeat rewrite <- app_assoc. exact X.
  - apply (obj_tc (B "HorizontalRule") (B "[]")); [body|apply (j_array0 []); reflexivity].
  - cbn [write_block].
    pose proof (array_join [B """html"""; quoted t] ltac:(fall)) as Y.
    pose proof (obj_tc (B "RawBlock") _ ltac:(body) Y) as X.
    cbn [join] in X. repeat rewrite <- app_assoc in X. exact X.
  - cbn in P. subst g. cbn [write_block].
    pose proof (array_join [B """inc"""; B """yes"""]) as A1.
    assert (json (B """inc""")) by (apply (j_string (B "inc")); body).
    assert (json (B """yes""")) by (apply (j_string (B "yes")); body).
    specialize (A1 ltac:(fall)).
    pose proof (array_join [B "[""inc"",""yes""]"] ltac:(fall)) as A2.
    pose proof (array_join [B """inc"""] ltac:(fall)) as A3.
    pose proof (array_join [quoted []; B "[""inc""]"; B "[[""inc"",""yes""]]"] ltac:(fall)) as A4.
    pose proof (array_join [B "["""",[""inc""],[[""inc"",""yes""]]]"; quoted (chop_nl t)] ltac:(fall)) as A5.
    pose proof (obj_tc (B "CodeBlock") _ ltac:(body) A5) as X.
    cbn [join] in X. repeat rewrite <- app_assoc in X. exact X.
  - apply plain_list in P as [-> P]. cbn [write_block].
    assert (json (B "[" ++ join (B ",") (map (fun it => B "[" ++ join (B ",") (map write_block it) ++ B "]") its) ++ B "]")) as J.
    { apply array_join. rewrite Forall_map. apply Forall_forall. intros it I.
      apply array_join. rewrite Forall_map. apply Forall_forall. intros b Ib.
      rewrite Forall_forall in H, P. specialize (H it I). specialize (P it I).
      rewrite Forall_forall in H, P. auto. }
    pose proof (obj_tc (B "BulletList") _ ltac:(body) J) as X.
    repeat rewrite <- app_assoc in X. exact X.
  - apply plain_quote in P. cbn [write_block].
    assert (json (B "[" ++ join (B ",") (map write_block l) ++ B "]")) as J.
    { apply array_join. rewrite Forall_map. apply Forall_forall. intros b I.
      rewrite Forall_forall in H, P. auto. }
    pose proof (obj_tc (B "BlockQuote") _ ltac:(body) J) as X.
    repeat rewrite <- app_assoc in X. exact X.
  - cbn [write_block].
    pose proof (array_join [B "{""t"":""Str"",""c"":" ++ quoted t ++ B "}"]
      ltac:(pose proof (obj_tc (B "Str") (quoted t) ltac:(body) ltac:(auto)); fall)) as Y.
    pose proof (obj_tc (B "Para") _ ltac:(body) Y) as X.
    cbn [join] in X. repeat rewrite <- app_assoc in X. exact X.
Qed.

Lemma blocks_json l : Forall plain_blocks l -> json (B "[" ++ write_blocks l ++ B "]").
Proof.
  intros H. apply array_join. rewrite Forall_map. apply Forall_forall. intros b I.
  apply block_json. rewrite Forall_forall in H. auto.
Qed.

Lemma to_json_json doc : Forall plain_blocks doc -> json (to_json doc).
Proof.
  intros H. apply blocks_json in H. unfold to_json.
  assert (members (B """blocks"":" ++ (B "[" ++ write_blocks doc ++ B "]"))) as M1.
  { pose proof (m_one [] (B "blocks") [] [] _ [] eq_refl ltac:(body) eq_refl eq_refl H eq_refl) as X.
    rewrite app_nil_r in X. exact X. }
  pose proof (m_more [] (B "meta") [] [] (B "{}") [] _ eq_refl ltac:(body) eq_refl eq_refl
    (j_object0 [] eq_refl) eq_refl M1) as M2.
  assert (forall s, forallb isdigit s = true -> s <> [] -> (forall r, s = "0"%char :: r -> r = []) -> json s) as N.
  { intros s D E Z. apply j_number. exists [], s, [], []. rewrite !app_nil_r. cbn [app].
    repeat split; auto. }
  assert (json (B "1")) as N1 by (apply N; [reflexivity|discriminate|intros r [= ]]).
  assert (json (B "23")) as N2 by (apply N; [reflexivity|discriminate|intros r [= ]]).
  pose proof (array_join [B "1"; B "23"; B "1"] ltac:(fall)) as V.
  pose proof (m_more [] (B "pandoc-api-version") [] [] _ [] _ eq_refl ltac:(body) eq_refl eq_refl
    V eq_refl M2) as M3.
  apply j_object in M3. repeat rewrite <- app_assoc in M3. exact M3.
Qed.
