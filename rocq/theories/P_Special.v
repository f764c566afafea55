(** Properties C188-C194: special markers (src/extensions/special_markers.c). *)
From Verif Require Import Base BaseL Dec M_Special S_Special L_Divs2 L_Special.

Lemma strstr_has' lit s : strstr lit s = None -> ~ has lit s.
Proof. intros H (a & b & E). exact (strstr_none lit s H a b E). Qed.
(** A text without ^, < and { has no marker. *)
Lemma quiet_mark x m r rest text : text = x ++ m ++ rest -> Mark x m r rest -> exists c, In c text /\ (c = "^"%char \/ c = "<"%char \/ c = "{"%char).
Proof.
  intros -> M.
  assert (K : forall c m', m = c :: m' -> In c (x ++ m ++ rest)) by (intros c m' ->; apply in_or_app; right; left; reflexivity).
  destruct M; (eexists; split; [eapply K; reflexivity|auto]).
Qed.
Definition quiet (c : ascii) : bool := negb (ceq c "^"%char || ceq c "<"%char || ceq c "{"%char).
Lemma quiet_unmarked text : forallb quiet text = true -> unmarked text.
Proof.
  intros Q u m r rest E M. destruct (quiet_mark u m r rest text E M) as (c & I & C). apply (proj1 (forallb_forall _ _) Q) in I. destruct C as [-> | [-> | ->]]; discriminate I.
Qed.
Lemma quiet_shows s : forallb quiet s = true -> forall u, Shows u s s.
Proof.
  intros Q u. apply unmarked_shows. intros v m r rest E M. 
  assert (K : exists c, In c s /\ quiet c = false).
  { subst s. assert (K : forall c m', m = c :: m' -> In c (v ++ m ++ rest)) by (intros c m' ->; apply in_or_app; right; left; reflexivity).
    destruct M; (eexists; split; [eapply K; reflexivity|reflexivity]). }
  destruct K as (c & I & C). apply (proj1 (forallb_forall _ _) Q) in I. congruence.
Qed.
(** The only byte that can start a marker is the one behind [u]. *)
Lemma quiet_only u c v : forallb quiet u = true -> forallb quiet v = true -> only_at u (u ++ c :: v).
Proof.
  intros Qu Qv x m r rest E M.
  assert (K : exists d m', m = d :: m' /\ quiet d = false) by (destruct M; (do 2 eexists; split; [reflexivity|reflexivity])).
  destruct K as (d & m' & -> & D). cbn [app] in E. clear M. revert u Qu E. induction x as [|e x IH]; intros u Qu E.
  - destruct u as [|f u]; [reflexivity|]. cbn [app] in E. injection E as -> E. cbn [forallb] in Qu. rewrite D in Qu. discriminate.
  - destruct u as [|f u].
    + exfalso. cbn [app] in E. injection E as -> E. subst v. rewrite forallb_app in Qv. apply andb_true_iff in Qv as [_ Qv]. cbn [forallb] in Qv. rewrite D in Qv. discriminate.
    + cbn [app] in E. injection E as -> E. cbn [forallb] in Qu. apply andb_true_iff in Qu as [_ Qu]. rewrite (IH u Qu E). reflexivity.
Qed.

(** * C188: markers are replaced and everything else stays *)
Definition broken (v : str) : str := B "<!--BREAK-->" ++ v.
Lemma broken_shows v : forallb quiet v = true -> Shows [] (broken v) (page ++ v).
Proof. intros Q. apply Sh_mark; [constructor|apply quiet_shows, Q]. Qed.
Theorem C188_refuted : (exists text h, Shows [] text h /\ no_front_blank text /\ ~ has (B "{index}") text /\ process text = Bad) /\
  (exists text h, Shows [] text h /\ process text = Out [] /\ h <> []).
Proof.
  split.
  - exists (broken (repeat "x"%char 40)), (page ++ repeat "x"%char 40). split; [apply broken_shows; reflexivity|]. split; [split; discriminate|]. split; [apply strstr_has'; reflexivity|vm_compute; reflexivity].
  - exists (B "^"), (separate ++ []). split; [|split; [vm_compute; reflexivity|discriminate]].
    apply (Sh_mark [] (B "^" ++ [] ++ []) separate [] []); [|constructor]. apply M_block; [left; constructor|constructor|right; auto].
Qed.
Print Assumptions C188_refuted.
Theorem C188_partial text h : Shows [] text h -> no_front_blank text -> ~ has (B "{index}") text -> pauses_to 2147483647 text -> length h < 4 * length text ->
  process text = Out h.
Proof. exact (process_shows text h). Qed.
Print Assumptions C188_partial.
Lemma quiet_then s t h : forallb quiet s = true -> forall u, Shows (u ++ s) t h -> Shows u (s ++ t) (s ++ h).
Proof.
  induction s as [|c s IH]; intros Q u H; [rewrite app_nil_r in H; exact H|]. cbn [forallb] in Q. apply andb_true_iff in Q as [Q1 Q2]. cbn [app]. apply Sh_byte.
  - intros m r rest E M. assert (K : exists d m', m = d :: m' /\ quiet d = false) by (destruct M; (do 2 eexists; split; [reflexivity|reflexivity])).
    destruct K as (d & m' & -> & D). injection E as <- _. congruence.
  - apply IH; [exact Q2|]. rewrite <- app_assoc. exact H.
Qed.
Lemma pauses_by n text : (forall k, has (B "<!--PAUSE:" ++ k) text -> forall ds, digits ds -> (exists z, k = ds ++ B "-->" ++ z) -> (digits_value ds <= n)%Z) -> pauses_to n text.
Proof. intros H ds D (a & b & E). apply (H (ds ++ B "-->" ++ b)); [exists a, []; rewrite app_nil_r, E, <- !app_assoc; reflexivity|exact D|eauto]. Qed.
Example C188_case : let text := B "a list" ++ [NL] ++ B "^ " ++ [NL] ++ B "b" ++ B "<!--PAUSE:05-->" ++ B "c" ++ [NL] in
  let h := B "a list" ++ [NL] ++ separate ++ B "b" ++ wait (B "5") ++ B "c" ++ [NL] in
  Shows [] text h /\ no_front_blank text /\ ~ has (B "{index}") text /\ pauses_to 2147483647 text /\ length h < 4 * length text.
Proof.
  cbv zeta. split; [|split; [split; discriminate|split; [apply strstr_has'; reflexivity|split; [|vm_compute; lia]]]].
  - change (B "a list" ++ [NL] ++ B "^ " ++ [NL] ++ B "b" ++ B "<!--PAUSE:05-->" ++ B "c" ++ [NL]) with ((B "a list" ++ [NL]) ++ (B "^" ++ B " " ++ [NL]) ++ B "b" ++ (B "<!--PAUSE:" ++ B "05" ++ B "-->") ++ B "c" ++ [NL]).
    change (B "a list" ++ [NL] ++ separate ++ B "b" ++ wait (B "5") ++ B "c" ++ [NL]) with ((B "a list" ++ [NL]) ++ separate ++ B "b" ++ wait (B "5") ++ B "c" ++ [NL]).
    apply quiet_then; [reflexivity|]. apply Sh_mark; [apply M_block; [right; exists (B "a list"), []; split; [reflexivity|constructor]|constructor; [left; reflexivity|constructor]|left; reflexivity]|].
    apply quiet_then; [reflexivity|]. apply Sh_mark; [apply M_pause; [repeat constructor|apply (C_number 1 "5"%char []); discriminate]|]. apply quiet_shows. reflexivity.
  - intros ds D (a & b & E).
    assert (L : strstr (B "<!--PAUSE:") (a ++ (B "<!--PAUSE:" ++ ds ++ B "-->") ++ b) = Some 11) by (rewrite <- E; reflexivity).
    assert (A : length a = 11 /\ a = B "a list" ++ [NL] ++ B "^ " ++ [NL] ++ B "b").
    { assert (N : ~ has (B "<!--PAUSE:") (B "!--PAUSE:05-->c" ++ [NL])) by (apply strstr_has'; reflexivity).
      do 11 (destruct a as [|? a]; [discriminate E|injection E as <- E]). destruct a as [|? a]; [split; reflexivity|]. exfalso. injection E as <- E. apply N.
      exists a, (ds ++ B "-->" ++ b). rewrite <- ?app_assoc in E. exact E. }
    destruct A as [_ ->]. rewrite <- !app_assoc in E. cbn [app] in E. vm_compute in E. injection E as E.
    assert (E' : B "05-->c" ++ [NL] = ds ++ B "-->" ++ b) by exact E.
    assert (Q : span isdigit (B "05-->c" ++ [NL]) = (ds, B "-->" ++ b)) by (rewrite E'; apply digits_span; [exact D|right; do 2 eexists; split; reflexivity]).
    vm_compute in Q. injection Q as <- _. vm_compute. discriminate.
Qed.

(** * C189: a page break, exactly *)
Theorem C189_exact u v : only_at u (u ++ B "<!--BREAK-->" ++ v) -> let n := 4 * length (u ++ B "<!--BREAK-->" ++ v) in
  process (u ++ B "<!--BREAK-->" ++ v) = if (length u + 189 <? n) && (n <=? length u + 189 + length v) then Bad else Out (u ++ page ++ v).
Proof. exact (one_break u v). Qed.
Print Assumptions C189_exact.
Example C189_case : only_at (B "ab") (B "ab" ++ B "<!--BREAK-->" ++ repeat "x"%char 40) /\ process (B "ab" ++ B "<!--BREAK-->" ++ repeat "x"%char 40) = Bad /\
  only_at (B "ab") (B "ab" ++ B "<!--BREAK-->" ++ repeat "x"%char 60) /\ process (B "ab" ++ B "<!--BREAK-->" ++ repeat "x"%char 60) = Out (B "ab" ++ page ++ repeat "x"%char 60).
Proof.
  split; [exact (quiet_only (B "ab") "<"%char (B "!--BREAK-->" ++ repeat "x"%char 40) eq_refl eq_refl)|]. split; [vm_compute; reflexivity|].
  split; [exact (quiet_only (B "ab") "<"%char (B "!--BREAK-->" ++ repeat "x"%char 60) eq_refl eq_refl)|vm_compute; reflexivity].
Qed.

(** * C190: memory of special markers *)
Theorem C190_refuted : process [] = Bad /\ process (B "<!--BREAK-->" ++ repeat "x"%char 36) = Bad /\ process (B "see {index}") = Bad /\ process (B "<!--PAUSE:2147483648-->") = Bad.
Proof. vm_compute. auto. Qed.
Print Assumptions C190_refuted.
Theorem C190_partial text : text <> [] -> no_pages text -> pauses_to 2147483647 text -> (forall a, text <> a ++ B "{index}") -> exists t, process text = Out t.
Proof. intros Z N P I. apply process_calm; [exact Z|]. repeat split; [apply N|apply N|exact P|exact I]. Qed.
Print Assumptions C190_partial.
Example C190_case : let text := B "a" ++ [NL] ++ B "^" in text <> [] /\ no_pages text /\ pauses_to 2147483647 text /\ (forall a, text <> a ++ B "{index}") /\ process text = Out (B "a" ++ [NL] ++ separate).
Proof.
  cbv zeta. split; [discriminate|]. split; [split; apply strstr_has'; reflexivity|]. split; [|split; [|vm_compute; reflexivity]].
  - intros ds _ (a & b & E). exfalso. assert (I : In "<"%char (B "a" ++ [NL] ++ B "^")) by (rewrite E; apply in_or_app; right; left; reflexivity). revert I. cbn. intuition discriminate.
  - intros a E. assert (I : In "{"%char (B "a" ++ [NL] ++ B "^")) by (rewrite E; apply in_or_app; right; left; reflexivity). revert I. cbn. intuition discriminate.
Qed.

(** * C191: end of block *)
Theorem C191_refuted : Shows [] (B " ^" ++ [NL] ++ B "a") (B " " ++ separate ++ B "a") /\ process (B " ^" ++ [NL] ++ B "a") = Out (B " ^" ++ [NL] ++ B "a").
Proof.
  split; [|vm_compute; reflexivity]. apply (quiet_then (B " ") (B "^" ++ [NL] ++ B "a") (separate ++ B "a") eq_refl []).
  apply (Sh_mark (B " ") (B "^" ++ [] ++ [NL]) separate (B "a")); [|apply quiet_shows; reflexivity]. apply M_block; [left; constructor; [left; reflexivity|constructor]|constructor|left; reflexivity].
Qed.
Print Assumptions C191_refuted.
Theorem C191_partial u b v : forallb quiet u = true -> u <> [] -> at_ (rev u) 0 = NL -> no_front_blank u -> blanks b -> forallb quiet v = true ->
  process (u ++ B "^" ++ b ++ [NL] ++ v) = Out (u ++ separate ++ v).
Proof.
  intros Qu Zu E F Hb Qv.
  assert (Qb : forallb quiet b = true) by (apply forallb_forall; intros c I; apply (proj1 (Forall_forall _ _) Hb) in I as [-> | ->]; reflexivity).
  assert (T : u ++ B "^" ++ b ++ [NL] ++ v = u ++ (B "^" ++ b ++ [NL]) ++ v) by (rewrite <- !app_assoc; reflexivity). rewrite T. apply process_shows.
  - apply quiet_then; [exact Qu|]. apply Sh_mark; [|apply quiet_shows, Qv]. apply M_block; [|exact Hb|left; reflexivity]. right.
    destruct (rev u) as [|c r] eqn:R; [discriminate|]. cbn in E. subst c. exists (rev r), []. split; [|constructor]. rewrite <- (rev_involutive u), R. reflexivity.
  - destruct u as [|c u]; [congruence|]. exact F.
  - intros (x & y & H). assert (I : In "{"%char (u ++ (B "^" ++ b ++ [NL]) ++ v)) by (rewrite H; apply in_or_app; right; left; reflexivity).
    assert (Q : forall c, In c (u ++ (B "^" ++ b ++ [NL]) ++ v) -> quiet c = true \/ c = "^"%char).
    { intros c. rewrite !in_app_iff. intros [K|[[K|[K|K]]|K]]; [left; exact (proj1 (forallb_forall _ _) Qu c K)|right; destruct K as [<-|[]]; reflexivity|left; exact (proj1 (forallb_forall _ _) Qb c K)|left; destruct K as [<-|[]]; reflexivity|left; exact (proj1 (forallb_forall _ _) Qv c K)]. }
    destruct (Q _ I); discriminate.
  - intros ds _ (x & y & H). exfalso. assert (I : In "<"%char (u ++ (B "^" ++ b ++ [NL]) ++ v)) by (rewrite H; apply in_or_app; right; left; reflexivity).
    assert (Q : forall c, In c (u ++ (B "^" ++ b ++ [NL]) ++ v) -> quiet c = true \/ c = "^"%char).
    { intros c. rewrite !in_app_iff. intros [K|[[K|[K|K]]|K]]; [left; exact (proj1 (forallb_forall _ _) Qu c K)|right; destruct K as [<-|[]]; reflexivity|left; exact (proj1 (forallb_forall _ _) Qb c K)|left; destruct K as [<-|[]]; reflexivity|left; exact (proj1 (forallb_forall _ _) Qv c K)]. }
    destruct (Q _ I); discriminate.
  - rewrite !app_length. change (length separate) with 7. change (length (B "^")) with 1. cbn [length]. destruct u as [|c u]; [congruence|]. cbn [length]. lia.
Qed.
Print Assumptions C191_partial.
Example C191_case : process (B "- a" ++ [NL] ++ B "^" ++ B " " ++ [NL] ++ B "- b") = Out (B "- a" ++ [NL] ++ separate ++ B "- b").
Proof. vm_compute. reflexivity. Qed.

(** * C192: the place of the index *)
Theorem C192_refuted : (forall u v, v <> [] -> only_at u (u ++ B "{index}" ++ v) -> process (u ++ B "{index}" ++ v) = Out (u ++ B "{index}" ++ v)) /\
  (forall u, only_at u (u ++ B "{index}") -> process (u ++ B "{index}") = Bad).
Proof. split; [exact index_stays|exact index_last]. Qed.
Print Assumptions C192_refuted.
Example C192_case : only_at (B "a ") (B "a " ++ B "{index}" ++ [NL]) /\ only_at (B "a ") (B "a " ++ B "{index}") /\ Shows [] (B "a " ++ B "{index}" ++ [NL]) (B "a " ++ B "<!--INDEX-->" ++ [NL]).
Proof.
  split; [exact (quiet_only (B "a ") "{"%char (B "index}" ++ [NL]) eq_refl eq_refl)|]. split; [exact (quiet_only (B "a ") "{"%char (B "index}") eq_refl eq_refl)|].
  apply quiet_then; [reflexivity|]. apply Sh_mark; [constructor|apply quiet_shows; reflexivity].
Qed.

(** * C193: markers in code *)
Theorem C193_refuted : let ticks := repeat BT 3 in let code := B "<!--PAUSE:5-->" ++ [NL] ++ B "^" ++ [NL] in let text := ticks ++ [NL] ++ code ++ ticks ++ [NL] in
  process text = Out (ticks ++ [NL] ++ wait (B "5") ++ [NL] ++ separate ++ ticks ++ [NL]).
Proof. vm_compute. reflexivity. Qed.
Print Assumptions C193_refuted.

(** * C194: text without markers stays *)
Theorem C194_plain text : text <> [] -> no_front_blank text -> unmarked text -> process text = Out text.
Proof.
  intros Z F U. apply process_shows; [apply unmarked_shows; intros v m r rest E M; exact (U v m r rest E M)|exact F| | |destruct text; [congruence|cbn [length]; lia]].
  - intros (a & b & E). exact (U a _ _ b E (M_index a b)).
  - intros ds D (a & b & E). exfalso. apply (U a (B "<!--PAUSE:" ++ ds ++ B "-->") (wait (without_zeros ds)) b E). constructor; [exact D|apply canonical_unique; reflexivity].
Qed.
Print Assumptions C194_plain.
Example C194_case : unmarked (B "x^2{") /\ no_front_blank (B "x^2{").
Proof.
  split; [|split; discriminate]. intros u m r rest E M.
  destruct u as [|c1 u]; [destruct M; discriminate E|]. injection E as <- E.
  destruct u as [|c2 u].
  - destruct M as [b nl rest O Hb Hn|rest|rest|ds d rest Hd C|rest]; try discriminate E.
    destruct O as [O|(a & b' & O & _)]; [inversion O as [|? ? [A|A] _]; discriminate A|]. destruct a as [|? a]; [discriminate O|]. injection O as _ O. destruct a; discriminate O.
  - injection E as <- E. destruct u as [|c3 u]; [destruct M; discriminate E|]. injection E as <- E. destruct u as [|c4 u]; [destruct M; discriminate E|]. injection E as <- E.
    destruct u; [|discriminate E]. destruct M; discriminate E.
Qed.
