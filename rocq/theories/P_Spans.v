(** C275-C280: adjacent bars in table rows (src/apex.c 1778-1998, 4438-4475). *)
From Verif Require Import Base BaseL M_Relax M_Spans S_Spans L_Spans.

Ltac noin := let I := fresh in intro I; repeat (destruct I as [I|I]; [discriminate I|]); destruct I.
Ltac ltext := split; noin.

Lemma one_line l : line_text l -> Lines [(l, [NL])].
Proof. intro T. apply lines_nl; [exact T|constructor]. Qed.
Lemma one_ended l : Ended (l ++ [NL]) (join [(l, [NL])]).
Proof. left. split; [right; exists l, NL; auto|]. unfold join. cbn. apply app_nil_r. Qed.
Lemma one_spread l : line_text l -> ~ fence_line l -> spanned (l ++ [NL]) = Some (spread l ++ [NL]).
Proof.
  intros T N. rewrite (spanned_exact (l ++ [NL]) [(l, [NL])] [(spread l, [NL])] (one_line l T) (one_ended l)); [unfold join; cbn; now rewrite app_nil_r|]. apply spread_out; [exact N|constructor].
Qed.
Lemma not_fence l : fence l = false -> ~ fence_line l.
Proof. intros E F. apply fence_bool in F. congruence. Qed.
Lemma has_two l : existsb (fun x => x) (map (fun k => starts (B "||") (skipn k l)) (seq 0 (length l))) = true -> within (B "||") l.
Proof.
  intro H. apply existsb_exists in H. destruct H as (x & I & ->). apply in_map_iff in I. destruct I as (k & E & _). apply starts_spec in E. destruct E as (r & E). exists (firstn k l), r. now rewrite <- E, firstn_skipn.
Qed.

(** C275. For every text: nothing is written beyond the buffer. *)
Theorem C275_safe t : spanned t <> None.
Proof. destruct (some_lines t) as (ls & H & E). rewrite (spanned_turn t ls H E). discriminate. Qed.
Print Assumptions C275_safe.

(** The text without a last newline needs the call that adds one. *)
Example C275_case : spanned (B "|a||||||||||") = Some (B "|a| << | << | << | << | << | << | << | << | << |" ++ [NL]) /\ colspans (B "||x") = None.
Proof. split; vm_compute; reflexivity. Qed.

(** C276. Every text is lines with their ends; in the result << stands between every two adjacent bars outside fences, everything else and every line end is as before, and a missing last line end is added. *)
Theorem C276_exact t : (exists ls, Lines ls /\ Ended t (join ls)) /\ forall ls out, Lines ls -> Ended t (join ls) -> Spread false ls out -> spanned t = Some (join out).
Proof. split; [apply some_lines|]. intros ls out. apply spanned_exact. Qed.
Print Assumptions C276_exact.

Example C276_case : let ls := [(B "|a|||", [CR; NL]); ([], [NL]); (B " ```", [CR]); (B "x || y", [NL]); (B "```", [NL]); (B "|b||", [NL])] in
  let out := [(B "|a| << | << |", [CR; NL]); ([], [NL]); (B " ```", [CR]); (B "x || y", [NL]); (B "```", [NL]); (B "|b| << |", [NL])] in
  let t := B "|a|||" ++ [CR; NL; NL] ++ B " ```" ++ [CR] ++ B "x || y" ++ [NL] ++ B "```" ++ [NL] ++ B "|b||" in
  Lines ls /\ Ended t (join ls) /\ Spread false ls out /\ spanned t = Some (join out).
Proof.
  cbv zeta. split; [|split; [|split; [|vm_compute; reflexivity]]].
  - apply lines_crlf; [ltext|]. apply lines_nl; [ltext|]. apply lines_cr; [ltext|discriminate|]. repeat (apply lines_nl; [ltext|]). constructor.
  - right. split; [|vm_compute; reflexivity]. exists (B "|a|||" ++ [CR; NL; NL] ++ B " ```" ++ [CR] ++ B "x || y" ++ [NL] ++ B "```" ++ [NL] ++ B "|b|"), "|"%char. split; [reflexivity|split; discriminate].
  - apply spread_turn. vm_compute. reflexivity.
Qed.

(** C277. A line that belongs to no table is not changed: false for every line outside fences in which two bars stand side by side. *)
Theorem C277_refuted l : line_text l -> ~ fence_line l -> within (B "||") l -> spanned (l ++ [NL]) = Some (spread l ++ [NL]) /\ spread l <> l.
Proof. intros T N W. split; [now apply one_spread|now apply spread_changed]. Qed.
Print Assumptions C277_refuted.
Example C277_refuted_case : spanned (B "Use `a || b` here." ++ [NL]) = Some (B "Use `a | << | b` here." ++ [NL]).
Proof. vm_compute. reflexivity. Qed.

(** A text without fences stays as it is exactly when no two bars stand side by side in it. *)
Theorem C277_partial ls : Lines ls -> Forall (fun p => snd p <> []) ls -> Forall (fun p => ~ fence_line (fst p)) ls -> (spanned (join ls) = Some (join ls) <-> Forall (fun p => ~ within (B "||") (fst p)) ls).
Proof.
  intros H E F. rewrite (spanned_turn (join ls) ls H (or_introl (conj (join_closed ls H E) eq_refl))). clear H E.
  assert (K : length (join ls) <= length (join (turn false ls)) /\ (length (join ls) = length (join (turn false ls)) -> Forall (fun p => ~ within (B "||") (fst p)) ls) /\ (Forall (fun p => ~ within (B "||") (fst p)) ls -> turn false ls = ls)).
  { induction F as [|[l e] ls N F (IH1 & IH2 & IH3)]; [repeat split; try constructor; cbn; lia|]. cbn [fst] in N. assert (X : fence l = false) by (destruct (fence l) eqn:E; [exfalso; apply N; now apply fence_bool|reflexivity]).
    cbn [turn fst]. unfold turned. cbn [fst snd]. rewrite X. cbn [xorb]. unfold join in *. cbn [map concat fst snd]. rewrite !app_length. destruct (spread_long l) as [L1 L2]. split; [lia|]. split.
    - intro L. constructor; [cbn [fst]; intro W; specialize (L2 W); lia|]. apply IH2. lia.
    - intro W. inversion W as [|? ? W1 W2]; subst. cbn [fst] in W1. rewrite (spread_same l W1), (IH3 W2). reflexivity. }
  destruct K as (_ & K2 & K3). split; [intro E; injection E as E; apply K2; now rewrite E|intro W; now rewrite (K3 W)].
Qed.
Print Assumptions C277_partial.

Example C277_case : let ls := [(B "| a | b |", [NL]); (B "some text", [NL])] in Lines ls /\ Forall (fun p => ~ fence_line (fst p)) ls /\ spanned (join ls) = Some (join ls).
Proof. cbv zeta. split; [repeat (apply lines_nl; [ltext|]); constructor|]. split; [repeat (constructor; [apply not_fence; reflexivity|]); constructor|vm_compute; reflexivity]. Qed.

(** C278. Lines in a fence stay as they are: false when a line in it starts with the other sign. *)
Theorem C278_refuted l : line_text l -> ~ fence_line l -> within (B "||") l -> spanned (join [(B "```", [NL]); (B "~~~", [NL]); (l, [NL]); (B "```", [NL])]) = Some (join [(B "```", [NL]); (B "~~~", [NL]); (spread l, [NL]); (B "```", [NL])]) /\ spread l <> l.
Proof.
  intros T N W. split; [|now apply spread_changed]. assert (F1 : fence_line (B "```")) by (exists [], (B "```"), []; auto). assert (F2 : fence_line (B "~~~")) by (exists [], (B "~~~"), []; auto).
  assert (Ls : Lines [(B "```", [NL]); (B "~~~", [NL]); (l, [NL]); (B "```", [NL])]) by (apply lines_nl; [ltext|]; apply lines_nl; [ltext|]; apply lines_nl; [exact T|]; apply lines_nl; [ltext|constructor]).
  apply (spanned_exact _ _ _ Ls); [left; split; [|reflexivity]; apply (join_closed _ Ls); repeat (constructor; [discriminate|]); constructor|].
  apply spread_open; [exact F1|]. change (B "~~~") with (spread (B "~~~")) at 2. apply spread_close; [exact F2|]. apply spread_out; [exact N|]. apply spread_open; [exact F1|constructor].
Qed.
Print Assumptions C278_refuted.
Example C278_refuted_case : spanned (join [(B "```", [NL]); (B "~~~", [NL]); (B "a || b", [NL]); (B "```", [NL])]) = Some (join [(B "```", [NL]); (B "~~~", [NL]); (B "a | << | b", [NL]); (B "```", [NL])]).
Proof. vm_compute. reflexivity. Qed.

(** True when all fences before are closed and no line in the fence starts as a fence does. *)
Theorem C278_partial t pre f e body post : Lines (pre ++ (f, e) :: body ++ post) -> Ended t (join (pre ++ (f, e) :: body ++ post)) -> Blocks pre -> fence_line f -> Forall (fun p => ~ fence_line (fst p)) body ->
  exists pre' post', length pre' = length pre /\ length post' = length post /\ spanned t = Some (join (pre' ++ (f, e) :: body ++ post')).
Proof.
  intros H E P F Bd. exists (turn false pre), (turn true post). split; [apply turn_len|]. split; [apply turn_len|]. rewrite (spanned_turn t _ H E). rewrite turn_app, (blocks_flips pre P). cbn [turn fst]. unfold turned. cbn [fst snd]. rewrite (proj2 (fence_bool f) F). cbn [xorb].
  destruct (body_turn body Bd) as [T1 T2]. rewrite turn_app, T1, T2. reflexivity.
Qed.
Print Assumptions C278_partial.

Example C278_case : let pre := [(B "|a||", [NL])] in let body := [(B "x || y", [NL])] in let post := [(B "```", [NL])] in
  Lines (pre ++ (B "```", [NL]) :: body ++ post) /\ Blocks pre /\ spanned (join (pre ++ (B "```", [NL]) :: body ++ post)) = Some (join ([(B "|a| << |", [NL])] ++ (B "```", [NL]) :: body ++ post)).
Proof. cbv zeta. split; [cbn [app]; repeat (apply lines_nl; [ltext|]); constructor|]. split; [apply blocks_line; [apply not_fence; reflexivity|constructor]|vm_compute; reflexivity]. Qed.

(** C279. The cells of a row keep their text; only empty cells between two bars are marked: false for a cell that ends with an escaped bar. *)
Theorem C279_refuted a b : line_text a -> line_text b -> ~ In "|"%char (a ++ b) -> ~ In BS (a ++ b) -> ~ fence_line (a ++ [BS; "|"%char; "|"%char] ++ b) ->
  parts false (a ++ [BS; "|"%char; "|"%char] ++ b) = [a ++ [BS; "|"%char]; b]
  /\ exists l, spanned ((a ++ [BS; "|"%char; "|"%char] ++ b) ++ [NL]) = Some (l ++ [NL]) /\ parts false l = [a ++ [BS; "|"%char] ++ B " << "; b].
Proof.
  intros [A1 A2] [B1 B2] N M F. assert (Na : ~ In "|"%char a) by (intro; apply N, in_or_app; now left). assert (Ma : ~ In BS a) by (intro; apply M, in_or_app; now left).
  assert (Nb : ~ In "|"%char b) by (intro; apply N, in_or_app; now right). assert (Mb : ~ In BS b) by (intro; apply M, in_or_app; now right).
  assert (Pb : parts false b = [b]) by (pose proof (parts_front b [] Nb Mb) as X; rewrite app_nil_r in X; rewrite X; cbn; now rewrite app_nil_r).
  assert (Sb : spread ("|"%char :: b) = "|"%char :: b) by (destruct b as [|d b]; [reflexivity|]; rewrite spread_bar by (intros ->; apply Nb; now left); now rewrite spread_none).
  split; [rewrite parts_front by assumption; cbn [app parts]; destruct (ascii_dec BS "|"); [discriminate|]; destruct (ascii_dec BS BS); [|congruence]; destruct (ascii_dec "|" "|"); [|congruence]; cbn [negb]; rewrite Pb; reflexivity|].
  exists (spread (a ++ [BS; "|"%char; "|"%char] ++ b)). split.
  - apply one_spread; [|exact F]. split; intro I; apply in_app_or in I; (destruct I as [I|I]; [auto|]); cbn [app] in I; (destruct I as [I|[I|[I|I]]]; [discriminate I|discriminate I|discriminate I|auto]).
  - rewrite spread_front by assumption. cbn [app]. rewrite (spread_cons BS) by discriminate. rewrite spread_two, Sb. rewrite parts_front by assumption. cbn [app B list_ascii_of_string parts]. destruct (ascii_dec BS "|"); [discriminate|]. destruct (ascii_dec BS BS); [|congruence]. cbn [negb].
    repeat (match goal with |- context [ascii_dec ?x ?y] => destruct (ascii_dec x y); try discriminate; try congruence end). rewrite Pb. reflexivity.
Qed.
Print Assumptions C279_refuted.
Example C279_refuted_case : parts false (B "x \|| y") = [B "x \|"; B " y"] /\ spanned (B "x \|| y" ++ [NL]) = Some (B "x \| << | y" ++ [NL]) /\ parts false (B "x \| << | y") = [B "x \| << "; B " y"].
Proof. repeat split; vm_compute; reflexivity. Qed.

(** True without backslashes: the same parts, the empty ones between two bars marked. *)
Theorem C279_partial l : line_text l -> ~ fence_line l -> ~ In BS l -> exists l', spanned (l ++ [NL]) = Some (l' ++ [NL]) /\ parts false l' = filled (parts false l).
Proof. intros T F N. exists (spread l). split; [now apply one_spread|now apply parts_spread]. Qed.
Print Assumptions C279_partial.

Example C279_case : line_text (B "|a|||b||") /\ ~ fence_line (B "|a|||b||") /\ ~ In BS (B "|a|||b||") /\ filled (parts false (B "|a|||b||")) = [[]; B "a"; B " << "; B " << "; B "b"; B " << "; []].
Proof. split; [ltext|]. split; [apply not_fence; reflexivity|]. split; [noin|vm_compute; reflexivity]. Qed.

(** C280. The pass applied to its own result changes nothing. *)
Theorem C280_once t x : spanned t = Some x -> spanned x = Some x.
Proof. apply spanned_twice. Qed.
Print Assumptions C280_once.

Example C280_case : spanned (B "|a||b|") = Some (B "|a| << |b|" ++ [NL]) /\ spanned (B "|a| << |b|" ++ [NL]) = Some (B "|a| << |b|" ++ [NL]).
Proof. split; vm_compute; reflexivity. Qed.
