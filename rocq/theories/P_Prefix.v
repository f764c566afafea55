(** Properties C210-C213: footnote ids with a prefix (src/apex.c 3204-3415). *)
From Verif Require Import Base BaseL M_Pass M_Prefix S_Prefix L_Pass L_Prefix.
From Coq Require Import NArith.

(** * C210: the prefix is eight hexadecimal digits *)
Theorem C210_prefix text : length (prefix text) = 8 /\ Forall hex_byte (prefix text).
Proof. exact (prefix_shape text). Qed.
Print Assumptions C210_prefix.
Example C210_case : prefix (B "a") = B "0002b606" /\ prefix (B "Hello world, this is a text with a note.[^1]") = B "a9b11001".
Proof. vm_compute. auto. Qed.

(** * C211: different texts have different prefixes *)
Theorem C211_refuted : prefix (B "Hello world, this is a text with a note.[^1].") = prefix (B "Hello world, this is a text with a note.[^2].").
Proof. vm_compute. reflexivity. Qed.
Print Assumptions C211_refuted.
(** The lower half of the hash never matters when the upper half is large. *)
Theorem C211_upper_half text text' : (268435456 <= djb2 text / 4294967296)%N -> (djb2 text / 4294967296 = djb2 text' / 4294967296)%N -> prefix text = prefix text'.
Proof. intros L E. rewrite !prefix_top by (try rewrite <- E; split; [exact L|apply top_bound]). rewrite E. reflexivity. Qed.
Print Assumptions C211_upper_half.
Example C211_case : (268435456 <= djb2 (B "Hello world, this is a text with a note.[^1].") / 4294967296)%N /\ prefix (B "Hello world, this is a text with a note.[^1].") = prefix (B "Hello world, this is a text with a note.(^9)!").
Proof. split; vm_compute; [discriminate|reflexivity]. Qed.

(** * C212: every id and link of a footnote gets the prefix, and nothing else changes *)
Theorem C212_refuted : exists p html h, length p = 8 /\ Prefixed p html h /\ add_prefix p html = Bad.
Proof.
  exists (B "01234567"). set (html := concat (repeat (B "id=""fn-") 1003) ++ repeat "x"%char 6 ++ B "id=""fn-"). exists html. destruct (prefixed_total (B "01234567") html) as [h P]. exists h.
  split; [reflexivity|]. split; [exact P|]. vm_compute. reflexivity.
Qed.
Print Assumptions C212_refuted.
Theorem C212_partial p html : ~ ends_in_key html -> exists h, Prefixed p html h /\ add_prefix p html = Out h.
Proof. intros N. destruct (prefixed_total p html) as [h P]. exists h. split; [exact P|exact (add_spec p html h P N)]. Qed.
Print Assumptions C212_partial.
Theorem C212_unique p html h h' : ~ ends_in_key html -> Prefixed p html h -> Prefixed p html h' -> h = h'.
Proof. intros N P P'. pose proof (add_spec _ _ _ P N) as E. rewrite (add_spec _ _ _ P' N) in E. congruence. Qed.
Print Assumptions C212_unique.
Example C212_case : add_prefix (B "0002b606") (B "<a href=""#fn-1"" id=""fnref-1"">1</a><li id=""fn-1""><a href=""#fnref-1"">") =
  Out (B "<a href=""#fn-0002b606-1"" id=""fnref-0002b606-1"">1</a><li id=""fn-0002b606-1""><a href=""#fnref-0002b606-1"">").
Proof. vm_compute. reflexivity. Qed.

(** * C213: links find their targets *)
Theorem C213_links p html x u r v w : ~ ends_in_key html -> ~ In DQ x -> ~ In "="%char x ->
  html = u ++ B "href=""#fn-" ++ x ++ [DQ] ++ r -> html = v ++ B "id=""fn-" ++ x ++ [DQ] ++ w ->
  exists u' r' v' w', add_prefix p html = Out (u' ++ B "href=""#fn-" ++ (p ++ B "-" ++ x) ++ [DQ] ++ r') /\ add_prefix p html = Out (v' ++ B "id=""fn-" ++ (p ++ B "-" ++ x) ++ [DQ] ++ w').
Proof.
  intros N N1 N2 E1 E2. destruct (prefixed_total p html) as [h P]. pose proof (add_spec p html h P N) as A.
  assert (P1 := P). rewrite E1 in P1. apply prefixed_label in P1 as (u' & r' & H1); [|unfold key; auto|exact N1|exact N2]. assert (P2 := P). rewrite E2 in P2. apply prefixed_label in P2 as (v' & w' & H2); [|unfold key; auto|exact N1|exact N2].
  exists u', r', v', w'. rewrite A. split; f_equal; [rewrite H1|rewrite H2]; rewrite <- !app_assoc; reflexivity.
Qed.
Print Assumptions C213_links.
