From Verif Require Import Base BaseL M_Encode S_Encode L_Encode.

Lemma reference_entity c : reference c = hex_entity c.
Proof.
  assert (H : forall c, seq_ (reference c) (hex_entity c) = true).
  { apply byte_forall. vm_compute; reflexivity. }
  apply seq_eq, H.
Qed.

Lemma flat_map_entity t : flat_map hex_entity t = flat_map reference t.
Proof.
  induction t as [|c t IH]; [reflexivity|]. cbn [flat_map].
  rewrite reference_entity, IH. reflexivity.
Qed.

(** [enc o s]: [o] is [s] with some bytes replaced by their references and no
    other ampersand. *)
Inductive enc : str -> str -> Prop :=
| enc_nil : enc [] []
| enc_plain c o s : c <> "&"%char -> enc o s -> enc (c :: o) (c :: s)
| enc_ent c o s : enc o s -> enc (hex_entity c ++ o) (c :: s).

Lemma enc_app o1 s1 o2 s2 : enc o1 s1 -> enc o2 s2 -> enc (o1 ++ o2) (s1 ++ s2).
Proof.
  induction 1; intros H2; simpl; auto.
  - constructor; auto.
  - apply enc_ent. auto.
Qed.

Lemma enc_plain_all s : ~ In "&"%char s -> enc s s.
Proof.
  induction s as [|c s IH]; intros H; constructor.
  - intros ->. apply H; left; reflexivity.
  - apply IH. intros I; apply H; right; exact I.
Qed.

Lemma enc_ents s : enc (flat_map hex_entity s) s.
Proof.
  induction s as [|c s IH]; [constructor|]. cbn [flat_map]. apply enc_ent, IH.
Qed.

Lemma resolve_mixed_entity c rest :
  resolve_mixed (hex_entity c ++ rest) = c :: resolve_mixed rest.
Proof.
  unfold hex_entity, hex2. cbn [B list_ascii_of_string app resolve_mixed].
  assert (H : forall c, match hex_value (hex_upper (code c / 16)),
                       hex_value (hex_upper (code c mod 16)) with
                 | Some x, Some y => ceq (ascii_of_N (x * 16 + y)) c
                 | _, _ => false end = true).
  { apply byte_forall. vm_compute; reflexivity. }
  specialize (H c).
  destruct (hex_value (hex_upper (code c / 16))) as [x|]; [|discriminate].
  destruct (hex_value (hex_upper (code c mod 16))) as [y|]; [|discriminate].
  apply ceq_eq in H. rewrite H. reflexivity.
Qed.

Lemma resolve_mixed_plain c s :
  c <> "&"%char -> resolve_mixed (c :: s) = c :: resolve_mixed s.
Proof.
  intros H. destruct c as [[] [] [] [] [] [] [] []]; try reflexivity.
  exfalso; apply H; reflexivity.
Qed.

Lemma enc_resolve o s : enc o s -> resolve_mixed o = s.
Proof.
  induction 1.
  - reflexivity.
  - rewrite resolve_mixed_plain by assumption. congruence.
  - rewrite resolve_mixed_entity. congruence.
Qed.

Lemma ents_length t : length (flat_map hex_entity t) = 6 * length t.
Proof.
  induction t as [|x t IH]; [reflexivity|]. cbn [flat_map length].
  rewrite app_length, IH, hex_entity_length. lia.
Qed.

(** Loop invariant: everything stays within six output bytes per input byte. *)
Definition good (html : str) (r : obf_result) : Prop :=
  match r with
  | ObfOk out oob => oob = false /\ (~ In "&"%char html -> enc out html)
  | ObfOverRun _ => exists a, html = a ++ [">"%char]
  | ObfNoFuel => False
  end.

Lemma store1_fst cap out oob s : fst (store1 cap out oob s) = out ++ s.
Proof. reflexivity. Qed.

Lemma not_in_app {A} (x : A) a b : ~ In x (a ++ b) <-> ~ In x a /\ ~ In x b.
Proof. rewrite in_app_iff. tauto. Qed.

Lemma obf_loop_good html : forall fuel m cap out p src,
  html = src ++ p -> length p < fuel ->
  length out + 6 * length p + 1 <= cap ->
  (~ In "&"%char html -> enc out src) ->
  good html (obf_loop fuel m cap out false p).
Proof.
  induction fuel as [|fuel IH]; intros m cap out p src Hh Hf Hc He; [lia|].
  cbn [obf_loop]. destruct p as [|c p1].
  { rewrite app_nil_r in Hh; subst. simpl in Hc |- *. split; [|exact He].
    apply Nat.leb_gt. lia. }
  cbn [length] in Hf, Hc.
  assert (Plain : forall m', good html
     (obf_loop fuel m' cap (out ++ [c]) (cap <? length out + length [c]) p1)).
  { intros m'. assert (cap <? length out + length [c] = false) as ->
      by (apply Nat.ltb_ge; simpl; lia).
    apply (IH _ _ _ _ (src ++ [c])).
    - rewrite Hh, <- app_assoc; reflexivity.
    - lia.
    - rewrite app_length; simpl; lia.
    - intros A. apply enc_app; [auto|]. apply enc_plain_all.
      rewrite Hh in A. rewrite not_in_app in A. simpl in *. tauto. }
  assert (Text : good html
     (if m && ceq c ">"
      then
       let (out1, oob1) := store1 cap out false [c] in
       let (link_text, p2) := span not_lt p1 in
       match encode_hex_entities link_text with
       | Some e =>
           let needed := length e in
           let cap' := if cap <=? length out1 + needed
                       then (length out1 + needed + 1) * 2 else cap in
           let (out2, oob2) := store1 cap' out1 oob1 e in
           obf_loop fuel m cap' out2 oob2 p2
       | None =>
           match p2 with
           | [] => ObfOverRun out1
           | d :: p3 =>
               let in_mailto' := m && negb (starts (B "</a") p2) in
               let (out2, oob2) := store1 cap out1 oob1 [d] in
               obf_loop fuel in_mailto' cap out2 oob2 p3
           end
       end
      else
       let in_mailto' := m && negb (starts (B "</a") (c :: p1)) in
       let (out', oob') := store1 cap out false [c] in
       obf_loop fuel in_mailto' cap out' oob' p1)).
  { destruct (m && ceq c ">") eqn:E; [|exact (Plain _)].
    apply andb_prop in E as [-> Ec]. apply ceq_eq in Ec; subst c.
    unfold store1; cbn [orb].
    assert (cap <? length out + length [">"%char] = false) as ->
      by (apply Nat.ltb_ge; simpl; lia).
    destruct (span not_lt p1) as [t p2] eqn:Es.
    pose proof (span_app _ _ _ _ Es) as Ep. rewrite encode_hex_ok.
    destruct t as [|t0 t].
    - simpl in Ep; subst p2. destruct p1 as [|d p3].
      + simpl. exists src. assumption.
      + cbn [length] in Hf, Hc. cbn [orb].
        assert (cap <? length (out ++ [">"%char]) + length [d] = false) as ->
          by (rewrite app_length; apply Nat.ltb_ge; simpl; lia).
        apply (IH _ _ _ _ (src ++ [">"; d]%char)).
        * rewrite Hh, <- app_assoc; reflexivity.
        * lia.
        * rewrite !app_length; simpl; lia.
        * intros A. rewrite <- app_assoc. apply enc_app; [auto|]. apply enc_plain_all.
          rewrite Hh in A. rewrite not_in_app in A. simpl in *. tauto.
    - remember (t0 :: t) as tt.
      assert (L : length p1 = length tt + length p2)
        by (rewrite Ep, app_length; reflexivity).
      assert (length (flat_map hex_entity tt) = 6 * length tt) as Le
        by apply ents_length.
      assert (cap <=? length (out ++ [">"%char]) + length (flat_map hex_entity tt) = false) as ->
        by (rewrite app_length, Le; apply Nat.leb_gt; simpl; lia).
      cbn [orb].
      assert (cap <? length (out ++ [">"%char]) + length (flat_map hex_entity tt) = false) as ->
        by (rewrite app_length, Le; apply Nat.ltb_ge; simpl; lia).
      apply (IH _ _ _ _ (src ++ (">"%char :: tt))).
      + rewrite Hh, <- app_assoc, Ep; reflexivity.
      + lia.
      + rewrite !app_length, Le; simpl; lia.
      + intros A. rewrite <- app_assoc. apply enc_app; [auto|].
        apply enc_plain; [discriminate|]. apply enc_ents. }
  destruct (negb m && starts (B "href=""mailto:") (c :: p1)) eqn:E; [|exact Text].
  apply andb_prop in E as [_ E].
  pose proof (starts_skipn _ _ E) as Ep.
  destruct (strchr DQ (skipn 6 (c :: p1))) as [k|] eqn:Ek; [|exact (Plain _)].
  rewrite encode_hex_ok.
  apply strchr_some in Ek as (a & b & Ea & Lk & Na).
  rewrite Ea.
  assert (firstn k (a ++ DQ :: b) = a) as ->.
  { rewrite firstn_app, <- Lk, Nat.sub_diag, firstn_all. apply app_nil_r. }
  assert (skipn (k + 1) (a ++ DQ :: b) = b) as ->.
  { rewrite skipn_app, <- Lk. rewrite skipn_all2 by lia.
    replace (length a + 1 - length a) with 1 by lia. reflexivity. }
  destruct a as [|a0 a'] eqn:Eaa; [exact Text|]. rewrite <- Eaa in *.
  assert (Ec : c :: p1 = B "href=""" ++ a ++ DQ :: b).
  { rewrite <- Ea. symmetry. rewrite <- (firstn_skipn 6 (c :: p1)) at 2. f_equal.
    rewrite Ep. reflexivity. }
  assert (Lp : S (length p1) = 6 + length a + 1 + length b).
  { change (S (length p1)) with (length (c :: p1)). rewrite Ec.
    rewrite !app_length. cbn. lia. }
  pose proof (ents_length a) as Le.
  assert (cap <=? length out + (6 + length (flat_map hex_entity a) + 1) = false) as ->
    by (rewrite Le; apply Nat.leb_gt; lia).
  unfold store1; cbn [orb].
  assert (length (B "href=""" ++ flat_map hex_entity a ++ [DQ]) = 7 + 6 * length a) as Lw.
  { rewrite !app_length, Le. cbn. lia. }
  rewrite Lw.
  assert (cap <? length out + (7 + 6 * length a) = false) as ->
    by (apply Nat.ltb_ge; lia).
  apply (IH _ _ _ _ (src ++ (B "href=""" ++ a ++ [DQ]))).
  - rewrite Hh, <- app_assoc. f_equal. rewrite Ec, <- !app_assoc. reflexivity.
  - lia.
  - rewrite app_length, Lw. lia.
  - intros A. apply enc_app; [auto|]. apply enc_app.
    + apply enc_plain_all. vm_compute. intuition discriminate.
    + apply enc_app; [apply enc_ents|]. apply enc_plain_all. vm_compute.
      intuition discriminate.
Qed.

Lemma obf_good html : good html (obfuscate_email_links html).
Proof.
  apply (obf_loop_good html _ _ _ _ _ []); simpl; try lia; try reflexivity.
  intros; constructor.
Qed.

Lemma obf_lossless html :
  ~ In "&"%char html -> (forall a, html <> a ++ [">"%char]) ->
  exists out, obfuscate_email_links html = ObfOk out false /\
              resolve_mixed out = html.
Proof.
  intros HA HG. pose proof (obf_good html) as G.
  destruct (obfuscate_email_links html) as [out oob|out|]; simpl in G.
  - destruct G as [-> G]. exists out. split; [reflexivity|].
    apply enc_resolve; auto.
  - destruct G as [a ->]. destruct (HG a eq_refl).
  - destruct G.
Qed.

Lemma obf_safe html :
  (forall a, html <> a ++ [">"%char]) ->
  exists out, obfuscate_email_links html = ObfOk out false.
Proof.
  intros HG. pose proof (obf_good html) as G.
  destruct (obfuscate_email_links html) as [out oob|out|]; simpl in G.
  - destruct G as [-> G]. exists out. reflexivity.
  - destruct G as [a ->]. destruct (HG a eq_refl).
  - destruct G.
Qed.

(** One complete link. *)
Lemma obf_step_plain fuel m cap out c p :
  (m && ceq c ">" = false) ->
  (negb m && starts (B "href=""mailto:") (c :: p) = false) ->
  length out + 1 <= cap ->
  obf_loop (S fuel) m cap out false (c :: p)
  = obf_loop fuel (m && negb (starts (B "</a") (c :: p))) cap (out ++ [c]) false p.
Proof.
  intros H1 H2 H3. cbn [obf_loop]. rewrite H1, H2. unfold store1. cbn [orb].
  assert (cap <? length out + length [c] = false) as ->
    by (apply Nat.ltb_ge; simpl; lia).
  reflexivity.
Qed.

Lemma span_not_lt t r : ~ In "<"%char t ->
  span not_lt (t ++ "<"%char :: r) = (t, "<"%char :: r).
Proof.
  induction t as [|c t IH]; intros H; [reflexivity|].
  cbn [app span]. unfold not_lt at 1.
  assert (ceq c "<" = false) as -> by (apply ceq_neq; intros ->; apply H; left; reflexivity).
  cbn [negb]. rewrite IH by (intros I; apply H; right; exact I). reflexivity.
Qed.

Lemma obf_link addr text :
  ~ In DQ addr -> ~ In "<"%char text -> text <> [] ->
  obfuscate_email_links
    (B "<a href=""mailto:" ++ addr ++ B """>" ++ text ++ B "</a>" ++ [NL])
  = ObfOk (B "<a href=""" ++ flat_map reference (B "mailto:" ++ addr) ++ B """>"
           ++ flat_map reference text ++ B "</a>" ++ [NL]) false.
Proof.
  intros HA HT HN. unfold obfuscate_email_links.
  set (html := B "<a href=""mailto:" ++ addr ++ B """>" ++ text ++ B "</a>" ++ [NL]).
  assert (Lh : length html = 23 + length addr + length text)
    by (unfold html; rewrite !app_length; cbn; lia).
  rewrite Lh. remember ((23 + length addr + length text) * 6 + 1) as cap eqn:Ecap.
  assert (Hf : 11 <= S (23 + length addr + length text)) by lia.
  remember (S (23 + length addr + length text)) as fuel eqn:Ef. clear Ef.
  unfold html. cbn [B list_ascii_of_string app].
  destruct fuel as [|fuel]; [lia|].
  rewrite obf_step_plain; [|reflexivity|reflexivity|simpl; lia].
  destruct fuel as [|fuel]; [lia|].
  rewrite obf_step_plain; [|reflexivity|reflexivity|simpl; lia].
  destruct fuel as [|fuel]; [lia|].
  rewrite obf_step_plain; [|reflexivity|reflexivity|simpl; lia].
  cbn [app andb].
  destruct fuel as [|fuel]; [lia|].
  match goal with |- obf_loop _ _ _ ?o _ ?p = _ => set (out0 := o); set (p0 := p) end.
  cbn [obf_loop]. unfold p0 at 1. cbn [negb andb].
  assert (starts (B "href=""mailto:") p0 = true) as -> by reflexivity.
  assert (skipn 6 p0 = (B "mailto:" ++ addr) ++ DQ :: ">"%char :: text ++ B "</a>" ++ [NL]) as ->
    by reflexivity.
  assert (HA' : ~ In DQ (B "mailto:" ++ addr)).
  { rewrite in_app_iff. intros [I|I]; [|auto]. cbn in I. intuition discriminate. }
  assert (strchr DQ ((B "mailto:" ++ addr) ++ DQ :: ">"%char :: text ++ B "</a>" ++ [NL])
          = Some (length (B "mailto:" ++ addr))) as ->.
  { apply strchr_some. eexists _, _. split; [reflexivity|]. auto. }
  rewrite firstn_app, Nat.sub_diag, firstn_all, app_nil_r.
  rewrite skipn_app, skipn_all2 by lia.
  replace (length (B "mailto:" ++ addr) + 1 - length (B "mailto:" ++ addr)) with 1 by lia.
  cbn [app skipn]. rewrite encode_hex_ok.
  pose proof (ents_length (B "mailto:" ++ addr)) as Le.
  remember (B "mailto:" ++ addr) as ma eqn:Ema.
  assert (Lma : length ma = 7 + length addr) by (rewrite Ema; reflexivity).
  destruct ma as [|m0 ma']; [discriminate|]. remember (m0 :: ma') as ma.
  change (B "mailto:") with (B "mailto:").
  rewrite flat_map_entity in *.
  assert (cap <=? length out0 + (6 + length (flat_map reference ma) + 1) = false) as ->
    by (apply Nat.leb_gt; rewrite Le; cbn; lia).
  unfold store1. cbn [orb].
  assert (cap <? length out0 + length (B "href=""" ++ flat_map reference ma ++ [DQ]) = false) as ->
    by (apply Nat.ltb_ge; rewrite !app_length, Le; cbn; lia).
  set (out1 := out0 ++ B "href=""" ++ flat_map reference ma ++ [DQ]).
  assert (L1 : length out1 = 10 + 6 * (7 + length addr))
    by (unfold out1; rewrite !app_length, Le; cbn; lia).
  destruct fuel as [|fuel]; [lia|]. cbn [obf_loop negb andb]. change (ceq ">" ">") with true. cbn iota.
  unfold store1 at 1. cbn [orb].
  match goal with |- context [span not_lt ?x] =>
    change x with (text ++ "<"%char :: B "/a>" ++ [NL]) end.
  rewrite span_not_lt by assumption. rewrite encode_hex_ok.
  destruct text as [|t0 t] eqn:Et; [congruence|]. rewrite <- Et in *.
  pose proof (ents_length text) as Lt. rewrite flat_map_entity in *.
  assert (cap <? length out1 + length [">"%char] = false) as ->
    by (apply Nat.ltb_ge; cbn [length]; lia).
  assert (cap <=? length (out1 ++ [">"%char]) + length (flat_map reference text) = false) as ->
    by (apply Nat.leb_gt; rewrite app_length, Lt; cbn [length]; lia).
  unfold store1. cbn [orb].
  assert (cap <? length (out1 ++ [">"%char]) + length (flat_map reference text) = false) as ->
    by (apply Nat.ltb_ge; rewrite app_length, Lt; cbn [length]; lia).
  set (out2 := (out1 ++ [">"%char]) ++ flat_map reference text).
  assert (L2 : length out2 = 11 + 6 * (7 + length addr) + 6 * length text)
    by (unfold out2; rewrite !app_length, Lt; cbn [length]; lia).
  do 6 (destruct fuel as [|fuel]; [lia|]).
  cbn [B list_ascii_of_string app].
  repeat (rewrite obf_step_plain;
          [|reflexivity|reflexivity|rewrite ?app_length; cbn [length]; lia]).
  cbn [obf_loop orb]. assert (cap <=? length (((((out2 ++ ["<"%char]) ++ ["/"%char]) ++ ["a"%char]) ++ [">"%char]) ++ [NL]) = false) as ->
    by (apply Nat.leb_gt; rewrite !app_length; cbn [length]; lia).
  f_equal. unfold out2, out1. rewrite <- !app_assoc, Ema. reflexivity.
Qed.

Lemma obf_lossless_refuted :
  exists html out,
    obfuscate_email_links html = ObfOk out false /\
    resolve_mixed out <> resolve_mixed html.
Proof.
  exists (B "<a href=""mailto:a&#x40;b"">x</a> "). eexists.
  split; [vm_compute; reflexivity|]. vm_compute. discriminate.
Qed.

Lemma obf_safe_refuted :
  exists html out, obfuscate_email_links html = ObfOverRun out.
Proof.
  exists (B "<a href=""mailto:a"">"). eexists. vm_compute. reflexivity.
Qed.
