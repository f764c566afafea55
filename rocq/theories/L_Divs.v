(** Lemmas for C179-C187. *)
From Verif Require Import Base BaseL L_Csv L_Lines M_Divs S_Divs.
Local Arguments isspace : simpl never.
Local Arguments isalpha : simpl never.
Local Arguments isdigit : simpl never.

(** * Spaces *)
Lemma tight_skip s : tight s -> skip_space s = s.
Proof. intros T. unfold skip_space. destruct s as [|c r]; [reflexivity|]. cbn [span]. rewrite (T c r eq_refl). reflexivity. Qed.
Lemma skip_app s x : spaces s -> tight x -> skip_space (s ++ x) = x.
Proof.
  intros S T. induction S as [|c s C S IH]; [apply tight_skip, T|]. unfold skip_space in *. cbn [app span]. rewrite C.
  destruct (span isspace (s ++ x)) as [u v]. exact IH.
Qed.
Lemma skip_spec s : exists sp, s = sp ++ skip_space s /\ spaces sp /\ tight (skip_space s).
Proof.
  induction s as [|c s (sp & E & S & T)]; [exists []; split; [reflexivity|split; [constructor|intros c r H; discriminate]]|].
  unfold skip_space in *. cbn [span]. destruct (isspace c) eqn:C.
  - destruct (span isspace s) as [u v]. cbn [snd] in *. exists (c :: sp). split; [cbn; congruence|]. split; [constructor; assumption|exact T].
  - exists []. split; [reflexivity|]. split; [constructor|]. cbn [snd]. intros d r H. injection H as <- _. exact C.
Qed.
Lemma spaces_skip s : spaces s -> skip_space s = [].
Proof. intros S. rewrite <- (app_nil_r s). apply skip_app; [exact S|intros c r H; discriminate]. Qed.
Lemma drop_back_app p a b : Forall (fun c => p c = true) b -> (forall c r, rev a = c :: r -> p c = false) -> drop_back p (a ++ b) = a.
Proof.
  intros F T. unfold drop_back. rewrite rev_app_distr. apply Forall_rev in F. induction F as [|c l C F IH].
  - cbn [app]. rewrite <- (rev_involutive a) at 2. f_equal. destruct (rev a) as [|c r]; [reflexivity|]. cbn [span]. rewrite (T c r eq_refl). reflexivity.
  - cbn [app span]. rewrite C. destruct (span p (l ++ rev a)) as [u v]. exact IH.
Qed.
Lemma drop_back_spec p s : exists b, s = drop_back p s ++ b /\ Forall (fun c => p c = true) b /\ (forall c r, rev (drop_back p s) = c :: r -> p c = false).
Proof.
  unfold drop_back. assert (H : exists u, rev s = u ++ snd (span p (rev s)) /\ Forall (fun c => p c = true) u /\ forall c r, snd (span p (rev s)) = c :: r -> p c = false).
  { induction (rev s) as [|c l (u & E & F & T)]; [exists []; split; [reflexivity|split; [constructor|discriminate]]|]. cbn [span]. destruct (p c) eqn:C.
    - destruct (span p l) as [x y]. cbn [snd] in *. exists (c :: u). split; [cbn; congruence|]. split; [constructor; assumption|exact T].
    - exists []. split; [reflexivity|]. split; [constructor|]. cbn [snd]. intros d r H. injection H as <- _. exact C. }
  destruct H as (u & E & F & T). exists (rev u). rewrite rev_involutive. split; [|split; [apply Forall_rev, F|exact T]].
  rewrite <- rev_app_distr, <- E, rev_involutive. reflexivity.
Qed.

(** * Fences *)
Lemma colon_span k x : at_ x 0 <> ":"%char -> span (ceq ":"%char) (repeat ":"%char k ++ x) = (repeat ":"%char k, x).
Proof.
  intros N. induction k as [|k IH]; cbn [repeat app].
  - destruct x as [|c x]; [reflexivity|]. cbn [span]. cbn in N. rewrite (proj2 (ceq_neq ":"%char c)) by congruence. reflexivity.
  - cbn [span]. rewrite ceq_refl, IH. reflexivity.
Qed.
Lemma fence_read l x : Fence l x -> 3 <= count_colons l /\ behind l = x.
Proof.
  intros (i & k & s & -> & Si & K & Ss & T & N).
  assert (E : skip_space (i ++ repeat ":"%char k ++ s ++ x) = repeat ":"%char k ++ s ++ x).
  { apply skip_app; [exact Si|]. destruct k as [|k]; [lia|]. intros c r H. injection H as <- _. reflexivity. }
  assert (C : count_colons (i ++ repeat ":"%char k ++ s ++ x) = k) by (unfold count_colons; rewrite E, colon_span by exact N; apply repeat_length).
  rewrite C. split; [exact K|]. unfold behind. rewrite C, E. rewrite skipn_app, skipn_all2 by (rewrite repeat_length; lia). rewrite repeat_length, Nat.sub_diag. cbn [skipn app].
  apply skip_app; assumption.
Qed.
Lemma colons_read s : s = repeat ":"%char (length (fst (span (ceq ":"%char) s))) ++ skipn (length (fst (span (ceq ":"%char) s))) s /\
  at_ (skipn (length (fst (span (ceq ":"%char) s))) s) 0 <> ":"%char.
Proof.
  induction s as [|c s [I1 I2]]; [split; [reflexivity|cbn; discriminate]|]. cbn [span]. destruct (ceq ":"%char c) eqn:C.
  - apply ceq_eq in C. subst c. destruct (span (ceq ":"%char) s) as [u v]. cbn [fst length] in *. cbn [repeat app skipn]. split; [f_equal; exact I1|exact I2].
  - cbn. split; [reflexivity|]. apply ceq_neq in C. congruence.
Qed.
Lemma read_fence l : 3 <= count_colons l -> Fence l (behind l).
Proof.
  intros K. destruct (skip_spec l) as (i & E & Si & T). destruct (colons_read (skip_space l)) as [R1 R2]. fold (count_colons l) in R1, R2.
  destruct (skip_spec (skipn (count_colons l) (skip_space l))) as (s & E' & Ss & T'). exists i, (count_colons l), s.
  split; [rewrite E at 1; f_equal; rewrite R1 at 1; f_equal; exact E'|]. split; [exact Si|]. split; [exact K|]. split; [exact Ss|]. split; [exact T'|].
  unfold behind. rewrite <- E'. exact R2.
Qed.
Lemma closes_read l : closing l = true <-> Closes l.
Proof.
  unfold closing, Closes. split.
  - intros H. apply andb_true_iff in H as [H1 H2]. apply Nat.leb_le in H1. pose proof (read_fence l H1) as F. destruct (behind l); [exact F|discriminate].
  - intros H. destruct (fence_read l [] H) as [K ->]. rewrite (proj2 (Nat.leb_le _ _) K). reflexivity.
Qed.
Lemma some_content a : existsb (fun c => negb (isspace c || ceq c ":"%char)) a = true <-> exists c, In c a /\ isspace c = false /\ c <> ":"%char.
Proof.
  rewrite existsb_exists. split; intros (c & I & H); exists c; (split; [exact I|]).
  - apply negb_true_iff, orb_false_iff in H as [H1 H2]. apply ceq_neq in H2. auto.
  - destruct H as [-> H]. apply ceq_neq in H. rewrite H. reflexivity.
Qed.
Lemma opens_read l a : opening l = Some a <-> Opens l a.
Proof.
  unfold opening. split.
  - destruct (Nat.ltb_spec (count_colons l) 3) as [K|K]; [discriminate|]. cbv zeta. pose proof (read_fence l K) as F. set (x := behind l) in *.
    destruct (drop_back_spec (ceq ":"%char) x) as (c & Ec & Fc & Tc). destruct (drop_back_spec isspace (drop_back (ceq ":"%char) x)) as (s & Es & Fs & Ts).
    set (y := drop_back (ceq ":"%char) x) in *. set (t := drop_back isspace y) in *. clearbody x y t.
    assert (C : c = repeat ":"%char (length c)). { clear - Fc. induction Fc as [|d c D F IH]; [reflexivity|]. cbn. apply ceq_eq in D. subst d. f_equal. exact IH. }
    destruct t as [|t0 t1].
    + destruct (existsb _ x) eqn:X; [|discriminate]. exfalso. apply some_content in X as (d & I & D1 & D2). rewrite Ec, Es in I. cbn [app] in I. rewrite Forall_forall in Fc, Fs.
      apply in_app_or in I as [I|I]; [rewrite (Fs d I) in D1; discriminate|]. pose proof (Fc d I) as D. apply ceq_eq in D. congruence.
    + destruct (existsb _ (t0 :: t1)) eqn:X; [|discriminate]. injection 1 as <-. exists s, (length c). rewrite <- C. split; [rewrite Ec, Es, <- app_assoc in F; exact F|].
      split; [exact Fs|]. split; [exact Ts|]. split; [|apply some_content, X].
      intros ->. rewrite app_nil_r in Es. rewrite Es in Tc. destruct (rev (t0 :: t1)) as [|d r]; [cbn; discriminate|]. specialize (Tc d r eq_refl). apply ceq_neq in Tc. cbn. congruence.
  - intros (s & j & F & Ss & Ta & N & Co). destruct (fence_read _ _ F) as [K ->]. rewrite (proj2 (Nat.ltb_ge _ _)) by exact K. cbv zeta.
    assert (Cj : Forall (fun c => ceq ":"%char c = true) (repeat ":"%char j)) by (apply Forall_forall; intros c I; apply repeat_spec in I; subst; reflexivity).
    assert (Na : a <> []) by (destruct Co as (c & I & _); destruct a; [destruct I|discriminate]).
    assert (E : drop_back isspace (drop_back (ceq ":"%char) (a ++ s ++ repeat ":"%char j)) = a).
    { rewrite app_assoc, (drop_back_app (ceq ":"%char) (a ++ s)); [apply (drop_back_app isspace a s); [exact Ss|exact Ta]|exact Cj|].
      intros c r E. rewrite rev_app_distr in E. destruct (rev s) as [|d v] eqn:Er.
      - assert (s = []) by (rewrite <- (rev_involutive s), Er; reflexivity). specialize (N H). cbn [app] in E. rewrite E in N. cbn in N. apply ceq_neq. congruence.
      - cbn [app] in E. injection E as -> _. unfold spaces in Ss. apply Forall_rev in Ss. rewrite Er in Ss. inversion Ss as [|? ? Sc _]; subst. apply ceq_neq. intros <-. discriminate Sc. }
    rewrite E. destruct a as [|a0 a1]; [congruence|]. rewrite (proj2 (some_content (a0 :: a1)) Co). reflexivity.
Qed.

(** * Elements and attributes *)
Lemma name_byte_spec c : (isalnum c || ceq c "-"%char) = true <-> name_byte c.
Proof. unfold isalnum, name_byte. rewrite !orb_true_iff, ceq_eq. tauto. Qed.
Lemma element_read a t x : Element a t x -> block_type a = (t, x).
Proof.
  unfold block_type. destruct 1 as [a N T|t s x Nt Ft Ss Tx Nb].
  - rewrite tight_skip by exact T. destruct a as [|c r]; [reflexivity|]. change (at_ (c :: r) 0) with c in N.
    destruct (ceq c ">"%char) eqn:C; [|reflexivity]. apply ceq_eq in C. destruct r as [|d r]; [reflexivity|]. change (at_ (c :: d :: r) 1) with d in N. cbn [span].
    destruct (isalnum d || ceq d "-"%char) eqn:D; [apply name_byte_spec in D; destruct N; split; assumption|reflexivity].
  - change (B ">" ++ t ++ s ++ x) with (">"%char :: t ++ s ++ x). rewrite tight_skip by (intros c r H; injection H as <- _; reflexivity).
    rewrite ceq_refl. assert (E : span (fun c => isalnum c || ceq c "-"%char) (t ++ s ++ x) = (t, s ++ x)).
    { clear Nt. induction Ft as [|c t C F IH]; cbn [app].
      - destruct (s ++ x) as [|d r]; [reflexivity|]. cbn [span]. cbn in Nb. destruct (isalnum d || ceq d "-"%char) eqn:D; [apply name_byte_spec in D; contradiction|reflexivity].
      - cbn [span]. rewrite (proj2 (name_byte_spec c) C), IH. reflexivity. }
    rewrite E. destruct t as [|t0 t1]; [congruence|]. rewrite skip_app by assumption. reflexivity.
Qed.
Lemma span_word (p : ascii -> bool) w r : Forall (fun c => p c = true) w -> (r = [] \/ exists c r', r = c :: r' /\ p c = false) -> span p (w ++ r) = (w, r).
Proof.
  intros F H. induction F as [|c w C F IH]; cbn [app].
  - destruct H as [->|(c & r' & -> & C)]; [reflexivity|]. cbn [span]. rewrite C. reflexivity.
  - cbn [span]. rewrite C, IH. reflexivity.
Qed.
Lemma quoted_read q v r : ~ In q v -> ~ In BS v -> q <> BS -> quoted q (v ++ q :: r) = Some (v, r).
Proof.
  intros N1 N2 Q. induction v as [|c v IH]; cbn [app quoted]; [rewrite ceq_refl; reflexivity|].
  apply nin_cons in N1 as [N3 N1]. apply nin_cons in N2 as [N4 N2]. rewrite (proj2 (ceq_neq c q)) by congruence. rewrite (proj2 (ceq_neq c BS)) by congruence.
  rewrite (IH N1 N2). reflexivity.
Qed.
Definition add (a : attrs) (t : item) : attrs :=
  match t with
  | Id w => Attrs (Some w) (a_class a) (a_pairs a)
  | Class w => Attrs (a_id a) (a_class a ++ [w]) (a_pairs a)
  | Pair k v | Quoted _ k v => Attrs (a_id a) (a_class a) (a_pairs a ++ [(k, v)])
  | Word _ => a
  end.
Lemma without_true l w (p : ascii -> bool) : without l w -> (forall c, isspace c = false -> ~ In c l -> p c = true) -> Forall (fun c => p c = true) w.
Proof. intros F H. eapply Forall_impl; [|exact F]. intros c [A1 A2]. apply H; assumption. Qed.
Lemma stop_space r (p : ascii -> bool) : (r = [] \/ exists c r', r = c :: r' /\ isspace c = true) -> (forall c, isspace c = true -> p c = false) ->
  r = [] \/ exists c r', r = c :: r' /\ p c = false.
Proof. intros [->|(c & r' & -> & C)] H; [left; reflexivity|right; exists c, r'; auto]. Qed.
Lemma not_in_ceq c d l : ~ In c l -> In d l -> ceq c d = false.
Proof. intros N I. apply ceq_neq. intros ->. contradiction. Qed.
Lemma key_front k x : good_key k -> exists c r, k ++ x = c :: r /\ isspace c = false /\ ceq c "#"%char = false /\ ceq c "."%char = false.
Proof.
  intros (Z & W & N1 & N2). destruct k as [|c k]; [congruence|]. exists c, (k ++ x). inversion W as [|? ? [C _] _]; subst. cbn in N1, N2.
  repeat split; [exact C|apply ceq_neq; congruence|apply ceq_neq; congruence].
Qed.
Lemma key_span k x : good_key k -> (x = [] \/ exists c r, x = c :: r /\ (c = "="%char \/ isspace c = true)) ->
  span (fun c => negb (ceq c "="%char || isspace c || ceq c "}"%char)) (k ++ x) = (k, x).
Proof.
  intros (Z & W & N1 & N2) H. apply span_word.
  - apply (without_true (B "=}")); [exact W|]. intros c S N. rewrite S, (not_in_ceq c "="%char (B "=}")), (not_in_ceq c "}"%char (B "=}")) by (cbn; auto). reflexivity.
  - destruct H as [->|(c & r & -> & [->|S])]; [left; reflexivity|right; exists "="%char, r; auto|right; exists c, r; split; [reflexivity|]]. rewrite S, orb_true_r. reflexivity.
Qed.
Lemma braces_space fuel slack d r a : isspace d = true -> braces fuel slack (d :: r) a = braces fuel slack r a.
Proof.
  intros D. destruct fuel as [|fuel]; [reflexivity|]. cbn [braces].
  assert (E : skip_space (d :: r) = skip_space r) by (unfold skip_space; cbn [span]; rewrite D; destruct (span isspace r); reflexivity).
  rewrite E. reflexivity.
Qed.
Lemma written_nil l s : Written l s -> s = [] -> l = [].
Proof.
  destruct 1 as [s S|s t l r S G R W]; [reflexivity|]. intros H. exfalso. apply app_eq_nil in H as [_ H]. apply app_eq_nil in H as [H _].
  destruct t as [w|w|k v|q k v|w]; cbn [item_text good] in *; try discriminate H; [destruct G as ((Z & _) & _); destruct k; [congruence|discriminate]..|destruct G as (Z & _); congruence].
Qed.
Lemma braces_written l s : Written l s -> forall fuel a, length s < fuel -> braces fuel true s a = Some (fold_left add l a).
Proof.
  induction 1 as [s S|s t l r S G R W IH]; intros fuel a L; (destruct fuel as [|fuel]; [lia|]).
  - cbn [braces]. rewrite spaces_skip by exact S. reflexivity.
  - rewrite !app_length in L. cbn [fold_left].
    assert (ST : forall p : ascii -> bool, (forall c, isspace c = true -> p c = false) -> r = [] \/ exists c r', r = c :: r' /\ p c = false) by (intros p; apply stop_space, R).
    assert (R' : r = [] \/ exists c x, r = c :: x /\ (c = "="%char \/ isspace c = true)) by (destruct R as [->|(c & r' & -> & C)]; eauto 6).
    destruct t as [w|w|k v|q k v|w]; cbn [item_text good add length] in *.
    + destruct G as [Z G]. cbn [braces]. change ((B "#" ++ w) ++ r) with ("#"%char :: w ++ r). rewrite skip_app; [|exact S|intros c x H; injection H as <- _; reflexivity].
      rewrite ceq_refl. rewrite (span_word _ w r).
      * rewrite app_length in L. destruct w as [|w0 w1]; [congruence|]. apply IH. cbn in L |- *. lia.
      * apply (without_true (B ".}")); [exact G|]. intros c C N. rewrite C, (not_in_ceq c "."%char (B ".}")), (not_in_ceq c "}"%char (B ".}")) by (cbn; auto). reflexivity.
      * apply ST. intros c C. rewrite C. reflexivity.
    + destruct G as [Z G]. cbn [braces]. change ((B "." ++ w) ++ r) with ("."%char :: w ++ r). rewrite skip_app; [|exact S|intros c x H; injection H as <- _; reflexivity].
      change (ceq "."%char "#"%char) with false. rewrite ceq_refl. rewrite (span_word _ w r).
      * rewrite app_length in L. destruct w as [|w0 w1]; [congruence|]. apply IH. cbn in L |- *. lia.
      * apply (without_true (B ".#}")); [exact G|]. intros c C N. rewrite C, (not_in_ceq c "."%char (B ".#}")), (not_in_ceq c "#"%char (B ".#}")), (not_in_ceq c "}"%char (B ".#}")) by (cbn; auto). reflexivity.
      * apply ST. intros c C. rewrite C. reflexivity.
    + destruct G as (K & V & N1 & N2). destruct (key_front k ((B "=" ++ v) ++ r) K) as (c & x & E & C1 & C2 & C3).
      rewrite <- (app_assoc k). cbn [braces]. rewrite skip_app; [|exact S|rewrite E; intros d y H; injection H as <- _; exact C1].
      rewrite E, C2, C3, <- E. rewrite (key_span k) by (auto; right; exists "="%char, (v ++ r); auto). change ((B "=" ++ v) ++ r) with ("="%char :: v ++ r). cbv iota beta. rewrite (ceq_refl "="%char).
      rewrite !app_length in L. change (length (B "=")) with 1 in L.
      destruct (v ++ r) as [|q y] eqn:Ev.
      * apply app_eq_nil in Ev as [-> ->]. destruct fuel as [|fuel]; [lia|]. rewrite (written_nil l [] W eq_refl). reflexivity.
      * assert (Q : ceq q DQ || ceq q SQ = false).
        { destruct v as [|v0 v1]; cbn [app] in Ev.
          - destruct R as [R|(d & r' & -> & D)]; [congruence|]. injection Ev as -> ->. apply orb_false_iff. split; apply ceq_neq; intros ->; discriminate D.
          - injection Ev as -> _. cbn in N1, N2. apply orb_false_iff. split; apply ceq_neq; assumption. }
        rewrite Q, <- Ev. rewrite (span_word _ v r).
        -- apply IH. lia.
        -- apply (without_true (B "}")); [exact V|]. intros d D N. rewrite D, (not_in_ceq d "}"%char (B "}")) by (cbn; auto). reflexivity.
        -- apply ST. intros d D. rewrite D. reflexivity.
    + destruct G as (K & Q & N1 & N2). destruct (key_front k ((B "=" ++ [q] ++ v ++ [q]) ++ r) K) as (c & x & E & C1 & C2 & C3).
      rewrite <- (app_assoc k). cbn [braces]. rewrite skip_app; [|exact S|rewrite E; intros d y H; injection H as <- _; exact C1].
      rewrite E, C2, C3, <- E. rewrite (key_span k) by (auto; right; exists "="%char, ((q :: v ++ [q]) ++ r); auto). change ((B "=" ++ [q] ++ v ++ [q]) ++ r) with ("="%char :: q :: (v ++ [q]) ++ r). cbv iota beta. rewrite (ceq_refl "="%char).
      assert (Q' : ceq q DQ || ceq q SQ = true) by (destruct Q as [-> | ->]; reflexivity). rewrite Q'. rewrite <- app_assoc. cbn [app]. rewrite quoted_read; [|exact N1|exact N2|destruct Q as [-> | ->]; discriminate].
      apply IH. rewrite !app_length in L. change (length (B "=")) with 1 in L. cbn [length] in L. lia.
    + destruct (key_front w r G) as (c & x & E & C1 & C2 & C3).
      cbn [braces]. rewrite skip_app; [|exact S|rewrite E; intros d y H; injection H as <- _; exact C1].
      rewrite E, C2, C3, <- E. rewrite (key_span w) by auto. destruct R as [->|(d & r' & -> & D)].
      * rewrite (written_nil l [] W eq_refl). reflexivity.
      * assert (Q : ceq d "="%char = false) by (apply ceq_neq; intros ->; discriminate D). rewrite Q.
        rewrite <- (braces_space fuel true d r' a D). apply IH. destruct G as (Z & _). destruct w; [congruence|]. cbn [length] in *. lia.
Qed.

Lemma add_all l : forall a, fold_left add l a = Attrs (match last_id l with Some i => Some i | None => a_id a end) (a_class a ++ classes l)
  (a_pairs a ++ flat_map (fun t => match t with Pair k v | Quoted _ k v => [(k, v)] | _ => [] end) l).
Proof.
  induction l as [|t l IH]; intros [i c p]; [cbn; rewrite !app_nil_r; reflexivity|]. cbn [fold_left]. rewrite IH.
  destruct t as [w|w|k v|q k v|w]; cbn [add a_id a_class a_pairs last_id flat_map app classes]; unfold classes; cbn [flat_map app]; rewrite <- ?app_assoc; try reflexivity.
  destruct (last_id l); reflexivity.
Qed.
Lemma blank_flat c l : blank_joined (c :: l) = c ++ flat_map (fun x => SP :: x) l.
Proof. revert c. induction l as [|x l IH]; intros c; [cbn; rewrite app_nil_r; reflexivity|]. change (blank_joined (c :: x :: l)) with (c ++ B " " ++ blank_joined (x :: l)). rewrite IH. reflexivity. Qed.
Lemma shown_html l : (forall i, last_id l = Some i -> length i <> 250) -> attr_html (fold_left add l (Attrs None [] [])) = shown l.
Proof.
  intros H. rewrite add_all. cbn [a_id a_class a_pairs app]. unfold attr_html, shown. cbn [a_id a_class a_pairs]. cbv zeta.
  set (cl := match classes l with [] => [] | c :: l0 => _ end). set (pr := flat_map _ (flat_map _ l)).
  assert (Ecl : cl = match classes l with [] => [] | c => attribute (B "class") (blank_joined c) end).
  { subst cl. destruct (classes l) as [|c k]; [reflexivity|]. rewrite blank_flat. unfold attribute. change (B " class=") with (B " " ++ B "class" ++ B "="). rewrite <- !app_assoc. reflexivity. }
  assert (Epr : pr = flat_map (fun t => match t with Pair k v | Quoted _ k v => attribute k v | _ => [] end) l).
  { subst pr. clear. induction l as [|t l IH]; [reflexivity|]. cbn [flat_map]. rewrite flat_map_app, IH. f_equal. destruct t; cbn [flat_map]; rewrite ?app_nil_r; reflexivity. }
  rewrite Ecl, Epr. clear cl pr Ecl Epr.
  destruct (last_id l) as [i|]; [|reflexivity]. rewrite (proj2 (Nat.eqb_neq _ _) (H i eq_refl)). change (attribute (B "id") i) with (B " id=" ++ [DQ] ++ i ++ [DQ]). rewrite <- !app_assoc. reflexivity.
Qed.
Lemma rev_last (s : str) c : rev (s ++ [c]) = c :: rev s.
Proof. apply rev_unit. Qed.
Lemma attributes_read x h : Attributes x h -> attributes x = Some h.
Proof.
  destruct 1 as [|w r Z W N R T|l s W H]; [reflexivity|..]; unfold attributes.
  - destruct w as [|c w]; [congruence|]. cbn [app]. inversion W as [|? ? [C _] _]; subst.
    rewrite (tight_skip (c :: w ++ r)) by (intros d y E; injection E as <- _; exact C).
    change (c :: w ++ r) with ((c :: w) ++ r). set (v := (c :: w) ++ r) in *.
    assert (E : drop_back isspace v = v) by (rewrite <- (app_nil_r v) at 1; apply drop_back_app; [constructor|exact T]).
    rewrite E. unfold v at 1. cbn [app]. cbn in N. rewrite (proj2 (ceq_neq c "{"%char)) by exact N. subst v. rewrite (span_word _ (c :: w) r).
    + cbn [fst]. unfold attr_html. cbn [a_id a_class a_pairs flat_map app]. rewrite app_nil_r. reflexivity.
    + apply (without_true []); [exact W|]. intros d D _. rewrite D. reflexivity.
    + apply stop_space; [exact R|]. intros d D. rewrite D. reflexivity.
  - change (B "{" ++ s ++ B "}") with ("{"%char :: s ++ ["}"%char]). set (v := "{"%char :: s ++ ["}"%char]).
    assert (E : skip_space v = v) by (apply tight_skip; intros c y E; injection E as <- _; reflexivity). rewrite E.
    assert (E' : drop_back isspace v = v).
    { rewrite <- (app_nil_r v) at 1. apply drop_back_app; [constructor|]. intros c y Q. subst v. cbn [rev] in Q. rewrite rev_last in Q. injection Q as <- _. reflexivity. }
    rewrite E'. unfold v at 1 2. rewrite ceq_refl. cbv zeta. rewrite rev_last. rewrite ceq_refl. cbn [orb]. rewrite removelast_last.
    rewrite (braces_written l s W) by lia. rewrite (shown_html l H). reflexivity.
Qed.
(** Reading attributes never runs out of fuel, and out of the text only without the closing brace. *)
Lemma span_length (p : ascii -> bool) s : length (snd (span p s)) <= length s.
Proof. induction s as [|c s IH]; [cbn; lia|]. cbn [span]. destruct (p c); [destruct (span p s); cbn [snd length] in *; lia|cbn; lia]. Qed.
Lemma quoted_length q s v t : quoted q s = Some (v, t) -> length t < length s.
Proof.
  revert v t. induction s as [s IH] using (well_founded_induction (Wf_nat.well_founded_ltof _ (@length ascii))). unfold Wf_nat.ltof in IH. intros v t.
  destruct s as [|c r]; [discriminate|]. cbn [quoted]. destruct (ceq c q); [injection 1 as <- <-; cbn; lia|]. destruct (ceq c BS).
  - destruct r as [|d r']; [discriminate|]. destruct (quoted q r') as [[v' t']|] eqn:E; [|discriminate]. injection 1 as <- <-. apply IH in E; cbn [length] in *; lia.
  - destruct (quoted q r) as [[v' t']|] eqn:E; [|discriminate]. injection 1 as <- <-. apply IH in E; cbn [length] in *; lia.
Qed.
Lemma braces_total fuel : forall s a, length s < fuel -> braces fuel true s a <> None.
Proof.
  induction fuel as [|fuel IH]; intros s a L; [lia|]. cbn [braces].
  assert (K : length (skip_space s) <= length s) by apply span_length. destruct (skip_space s) as [|c r] eqn:E; [discriminate|]. cbn [length] in K.
  destruct (ceq c "#"%char); [|destruct (ceq c "."%char)].
  - set (p := fun _ => _). pose proof (span_length p r) as P. destruct (span p r) as [w t]. cbn [snd] in P. apply IH. lia.
  - set (p := fun _ => _). pose proof (span_length p r) as P. destruct (span p r) as [w t]. cbn [snd] in P. apply IH. lia.
  - set (p := fun c => negb (_ || _ || ceq c "}"%char)). pose proof (span_length p (c :: r)) as P. destruct (span p (c :: r)) as [k [|d t]]; [discriminate|]. cbn [snd length] in P.
    destruct (ceq d "="%char); [|apply IH; lia]. destruct t as [|q t']; [apply IH; cbn; lia|]. cbn [length] in P. destruct (ceq q DQ || ceq q SQ).
    + destruct (quoted q t') as [[v t]|] eqn:Q; [apply quoted_length in Q; apply IH; lia|apply IH; cbn; lia].
    + set (p' := fun c => negb (isspace c || _)). pose proof (span_length p' (q :: t')) as P'. destruct (span p' (q :: t')) as [v t]. cbn [snd length] in P'. apply IH. lia.
Qed.
