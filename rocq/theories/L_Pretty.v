(** Proofs about M_Pretty. *)
From Verif Require Import Base BaseL M_Pretty S_Pretty.

Definition all_ws (s : str) : Prop := forallb isspace s = true.
Lemma solid_app a b : solid (a ++ b) = solid a ++ solid b.
Proof. apply filter_app. Qed.
Lemma solid_ws s : all_ws s -> solid s = [].
Proof.
  unfold all_ws, solid. induction s as [|c s IH]; [reflexivity|]. cbn. rewrite Bool.andb_true_iff. intros [-> H]. now apply IH.
Qed.
Lemma solid_collapse : forall s n, solid (collapse n s) = solid s.
Proof.
  induction s as [|c s IH]; intro n; [reflexivity|]. cbn [collapse]. destruct (ceq c NL) eqn:E.
  - apply ceq_eq in E. subst c. destruct (Nat.leb (S n) 2).
    + change (NL :: collapse (S n) s) with ([NL] ++ collapse (S n) s). rewrite solid_app, IH. reflexivity.
    + rewrite IH. reflexivity.
  - change (c :: collapse 0 s) with ([c] ++ collapse 0 s). change (c :: s) with ([c] ++ s).
    rewrite !solid_app, IH. reflexivity.
Qed.

(** ** Writing *)
Definition pads (k : nat) (w w' : wr) : Prop := exists ws, all_ws ws /\ length ws <= k /\
  w_out w' = w_out w ++ ws /\ w_cap w' = w_cap w /\ w_ok w'.
Lemma pads_refl w : w_ok w -> pads 0 w w.
Proof. intro H. exists []. rewrite app_nil_r. repeat split; auto; apply H. Qed.
Lemma pads_le j k w w' : j <= k -> pads j w w' -> pads k w w'.
Proof. intros L (ws & A & B & C & D & E). exists ws. repeat split; auto; try lia; apply E. Qed.
Lemma pads_ok k w w' : pads k w w' -> w_ok w'.
Proof. intros (ws & _ & _ & _ & _ & H). exact H. Qed.
Lemma pads_trans j k a b c : pads j a b -> pads k b c -> pads (j + k) a c.
Proof.
  intros (u & A & B & C & D & E) (v & A' & B' & C' & D' & E'). exists (u ++ v).
  split; [unfold all_ws in *; rewrite forallb_app, A, A'; reflexivity|]. rewrite app_length. split; [lia|].
  split; [now rewrite C', C, app_assoc|]. split; [congruence|assumption].
Qed.
Lemma put_pads c w : isspace c = true -> w_ok w -> pads 1 w (w_put c w).
Proof.
  intros Hc Hw. pose proof (w_put_ok c w Hw) as Hw'. unfold w_put in *. destruct (Nat.ltb 0 (w_rem w)).
  - exists [c]. unfold all_ws. cbn. rewrite Hc. repeat split; auto; apply Hw'.
  - apply (pads_le 0); [lia|]. now apply pads_refl.
Qed.
Lemma puts_pads s w : all_ws s -> w_ok w -> pads (length s) w (w_puts_lt s w).
Proof.
  intros Hs Hw. pose proof (w_puts_lt_ok s w Hw) as Hw'. unfold w_puts_lt in *. destruct (Nat.ltb (length s) (w_rem w)).
  - exists s. repeat split; auto; apply Hw'.
  - apply (pads_le 0); [lia|]. now apply pads_refl.
Qed.
Lemma repeat_pads n : forall w, w_ok w -> pads (2 * n) w (repeat_w n w).
Proof.
  induction n as [|n IH]; intros w Hw; [now apply pads_refl|]. cbn [repeat_w].
  pose proof (puts_pads (B "  ") w eq_refl Hw) as H. specialize (IH _ (pads_ok _ _ _ H)).
  apply (pads_le (2 + 2 * n)); [lia|]. exact (pads_trans _ _ _ _ _ H IH).
Qed.
Lemma pads_rem k w w' : w_ok w -> pads k w w' -> w_rem w <= w_rem w' + k.
Proof. intros [A _] (ws & _ & L & E & C & [D _]). rewrite E, app_length in D. lia. Qed.
Lemma pads_solid k w w' : pads k w w' -> solid (w_out w') = solid (w_out w).
Proof. intros (ws & A & _ & E & _). rewrite E, solid_app, (solid_ws _ A). apply app_nil_r. Qed.
Lemma pads_len k w w' : pads k w w' -> length (w_out w') <= length (w_out w) + k.
Proof. intros (ws & A & L & E & _). rewrite E, app_length. lia. Qed.
Lemma pads_cap k w w' : pads k w w' -> w_cap w' = w_cap w.
Proof. now intros (ws & _ & _ & _ & E & _). Qed.

(** Everything but the buffer and the line start is kept. *)
Definition alike (p q : ps) : Prop := p_indent q = p_indent p /\ p_pre q = p_pre p.
Lemma write_indent_ok p : w_ok (p_w p) -> pads (2 * p_indent p) (p_w p) (p_w (write_indent p)) /\ alike p (write_indent p).
Proof.
  intro H. unfold write_indent. destruct (p_ls p && negb (p_pre p))%bool.
  - split; [now apply repeat_pads|split; reflexivity].
  - split; [|split; reflexivity]. apply (pads_le 0); [lia|]. now apply pads_refl.
Qed.
Lemma new_line_ok p : w_ok (p_w p) -> pads 1 (p_w p) (p_w (new_line p)) /\ alike p (new_line p).
Proof. intro H. split; [now apply put_pads|split; reflexivity]. Qed.
Lemma alike_trans p q r : alike p q -> alike q r -> alike p r.
Proof. unfold alike. intros [A C] [D E]. split; congruence. Qed.

(** A step writes white space, a text unless there is no room, and white space. *)
Definition puts (t : str) (w w' : wr) : Prop := w_ok w' /\ w_cap w' = w_cap w /\
  (w_out w' = w_out w ++ t \/ w_out w' = w_out w) /\ (length t < w_rem w -> w_out w' = w_out w ++ t).
Lemma puts_lt t w : w_ok w -> puts t w (w_puts_lt t w).
Proof.
  intro H. split; [now apply w_puts_lt_ok|]. split; [apply w_puts_lt_cap|]. split; [|apply w_puts_lt_out].
  unfold w_puts_lt. destruct (Nat.ltb _ _); [now left|now right].
Qed.
Lemma puts_1 c w : w_ok w -> puts [c] w (w_put c w).
Proof.
  intro H. split; [now apply w_put_ok|]. split; [apply w_put_cap|]. split.
  - unfold w_put. destruct (Nat.ltb _ _); [now left|now right].
  - cbn. intro L. apply w_put_out. lia.
Qed.
Definition writes (k : nat) (t : str) (w w' : wr) : Prop :=
  exists w1 w2 i j, i + j <= k /\ pads i w w1 /\ puts t w1 w2 /\ pads j w2 w'.
Lemma writes_ok k t w w' : w_ok w -> writes k t w w' ->
  w_ok w' /\ w_cap w' = w_cap w /\ length (w_out w') <= length (w_out w) + length t + k /\
  (solid (w_out w') = solid (w_out w) ++ solid t \/ solid (w_out w') = solid (w_out w)) /\
  (length t + k < w_rem w -> solid (w_out w') = solid (w_out w) ++ solid t /\ 0 < w_rem w').
Proof.
  intros Hw (w1 & w2 & i & j & L & P1 & (Hw2 & Hc2 & D & K) & P2).
  pose proof (pads_ok _ _ _ P1) as H1. pose proof (pads_ok _ _ _ P2) as H2.
  split; [assumption|]. split; [rewrite (pads_cap _ _ _ P2), Hc2, (pads_cap _ _ _ P1); reflexivity|].
  pose proof (pads_len _ _ _ P1) as L1. pose proof (pads_len _ _ _ P2) as L2.
  rewrite (pads_solid _ _ _ P2), <- (pads_solid _ _ _ P1).
  assert (LP : length (w_out w2) <= length (w_out w1) + length t).
  { destruct D as [-> | ->]; rewrite ?app_length; lia. }
  split; [lia|]. split.
  - destruct D as [-> | ->]; [left; apply solid_app|now right].
  - intro R. pose proof (pads_rem _ _ _ Hw P1) as R1. rewrite K by lia. split; [apply solid_app|].
    pose proof (pads_cap _ _ _ P1) as C1. pose proof (pads_cap _ _ _ P2) as C2.
    destruct Hw as [Hw _]. destruct H2 as [H2 _]. lia.
Qed.

(** ** Cutting *)
Lemma name_byte_in c : name_byte c = true <-> in_name c.
Proof.
  unfold name_byte, in_name. rewrite !Bool.andb_true_iff, !Bool.negb_true_iff, !ceq_neq. tauto.
Qed.
Lemma tag_opens s : (exists x, tag_name s = Some x) <-> opens ("<"%char :: s).
Proof.
  unfold tag_name, opens. destruct (ceq (at_ s 0) "/") eqn:C.
  - apply ceq_eq in C. destruct s as [|e s]; [discriminate|]. cbn in C. subst e. cbn [skipn].
    destruct (span name_byte s) as [n r] eqn:E. pose proof (span_app _ _ _ _ E) as A. pose proof (span_all _ _ _ _ E) as F.
    split.
    + intros (x & H). destruct n as [|c n]; [discriminate|]. exists ["/"%char], c, (n ++ r).
      split; [now rewrite A|]. split; [now right|]. cbn in F. apply Bool.andb_true_iff in F as [F _]. now apply name_byte_in.
    + intros (o & c & q & H & O & N). destruct n as [|d n]; [|eauto]. exfalso. injection H as H.
      destruct O as [->| ->]; cbn in H.
      * injection H as H1 H2. destruct N as (_ & _ & N). congruence.
      * injection H as H2. clear A. rewrite H2 in E. apply name_byte_in in N. cbn [span] in E. rewrite N in E.
        destruct (span name_byte q); discriminate.
  - destruct (span name_byte s) as [n r] eqn:E. pose proof (span_app _ _ _ _ E) as A. pose proof (span_all _ _ _ _ E) as F.
    split.
    + intros (x & H). destruct n as [|c n]; [discriminate|]. exists [], c, (n ++ r).
      split; [now rewrite A|]. split; [now left|]. cbn in F. apply Bool.andb_true_iff in F as [F _]. now apply name_byte_in.
    + intros (o & c & q & H & O & N). destruct n as [|d n]; [|eauto]. exfalso. injection H as H.
      destruct O as [->| ->]; cbn in H; clear A; rewrite H in E, C.
      * apply name_byte_in in N. cbn [span] in E. rewrite N in E.
        destruct (span name_byte q); discriminate.
      * cbn in C. discriminate.
Qed.
Lemma opens_lt c s : opens (c :: s) -> c = "<"%char.
Proof. intros (o & d & r & E & _). now injection E. Qed.
Lemma opens_cut t s : opens (t ++ s) -> (exists u, t = u ++ [">"%char]) -> no_gt (removelast t) -> opens t.
Proof.
  intros (o & c & r & E & O & N) (u & ->) G. rewrite removelast_last in G.
  (* the name byte lies in [u] *)
  assert (K : exists v, u = "<"%char :: o ++ c :: v).
  { destruct u as [|a u]; [discriminate|]. rewrite <- app_assoc in E. cbn in E. injection E as -> E.
    destruct O as [->| ->]; cbn in E |- *.
    - destruct u as [|b u]; cbn in E; injection E as E1 E2.
      + destruct N as (_ & N & _). congruence.
      + subst. eauto.
    - destruct u as [|b u]; cbn in E; injection E as E1 E2; [discriminate|]. subst b.
      destruct u as [|b u]; cbn in E2; injection E2 as E2 E3.
      + destruct N as (_ & N & _). congruence.
      + subst. eauto. }
  destruct K as (v & ->). exists o, c, (v ++ [">"%char]). split; [|auto]. cbn. now rewrite <- app_assoc.
Qed.
Lemma cut_tag_spec s t r : cut_tag s = (t, r) -> s = t ++ r /\
  ((exists u, t = u ++ [">"%char] /\ no_gt u) \/ (no_gt t /\ r = [])).
Proof.
  unfold cut_tag. destruct (span (fun c => negb (ceq c ">")) s) as [a q] eqn:E.
  pose proof (span_app _ _ _ _ E) as A. pose proof (span_all _ _ _ _ E) as F. pose proof (span_stop _ _ _ _ E) as P.
  assert (G : no_gt a).
  { intro I. rewrite forallb_forall in F. specialize (F _ I). discriminate. }
  destruct q as [|c q]; intro H; injection H as <- <-.
  - split; [assumption|]. right. auto.
  - cbn in P. apply Bool.negb_false_iff, ceq_eq in P. subst c. split; [rewrite A, <- app_assoc; reflexivity|]. left. eauto.
Qed.
Lemma cut_nil l : cut [] l -> l = [].
Proof.
  intro C. remember [] as s eqn:E. destruct C as [|t s l _ O _|t _ O|c s l _ _]; [reflexivity| | |discriminate].
  - destruct t; discriminate.
  - subst t. destruct O as (o & c & r & H & _). discriminate.
Qed.
Lemma cut_tag_cut s t r : cut_tag s = (t, r) -> opens s -> forall l, cut r l -> cut s (Tag t :: l).
Proof.
  intros E O l C. destruct (cut_tag_spec _ _ _ E) as [-> [(u & -> & G)|[G ->]]].
  - apply c_tag; auto. apply (opens_cut _ r); [assumption|eauto|]. now rewrite removelast_last.
  - rewrite app_nil_r in *. apply cut_nil in C. subst l. now apply c_last.
Qed.
Lemma cut_bytes ws : (forall c, In c ws -> c <> "<"%char) -> forall s l, cut s l -> cut (ws ++ s) (map Byte ws ++ l).
Proof.
  induction ws as [|c ws IH]; intros H s l C; [assumption|]. cbn. apply c_byte.
  - intro O. apply opens_lt in O. apply (H c); [now left|assumption].
  - apply IH; auto. intros d I. apply H. now right.
Qed.


(** ** One step *)
Lemma expand_ok w : w_ok w -> w_ok (expand w) /\ w_out (expand w) = w_out w.
Proof.
  intros [A D]. unfold expand. destruct (Nat.ltb (w_rem w) 100); [|split; [split|]; auto].
  split; [split; cbn; [lia|assumption]|reflexivity].
Qed.
Lemma span_pre f x y : forallb f x = true -> span f (x ++ y) = (let (a, q) := span f y in (x ++ a, q)).
Proof.
  induction x as [|c x IH]; cbn; intro H; [now destruct (span f y)|].
  apply Bool.andb_true_iff in H as [-> H]. rewrite (IH H). now destruct (span f y).
Qed.
Lemma no_gt_cut x y t r : no_gt x -> cut_tag (x ++ y) = (t, r) -> exists t', t = x ++ t' /\ y = t' ++ r.
Proof.
  unfold cut_tag. intros G. rewrite span_pre.
  2: { apply forallb_forall. intros c I. apply Bool.negb_true_iff, ceq_neq. intros ->. contradiction. }
  destruct (span (fun c => negb (ceq c ">")) y) as [a q] eqn:E. pose proof (span_app _ _ _ _ E) as ->.
  destruct q as [|c q]; intro H; injection H as <- <-.
  - exists a. auto.
  - exists (a ++ [c]). rewrite <- !app_assoc. auto.
Qed.
Lemma in_name_gt n : Forall in_name n -> no_gt n.
Proof. intros F I. rewrite Forall_forall in F. destruct (F _ I) as (_ & N & _). congruence. Qed.
Lemma tag_named s n b v t r : tag_name s = Some (n, b, v) -> cut_tag ("<"%char :: s) = (t, r) -> named t b n.
Proof.
  unfold tag_name. intros T C.
  set (o := if ceq (at_ s 0) "/" then ["/"%char] else []).
  destruct (span name_byte (if ceq (at_ s 0) "/" then skipn 1 s else s)) as [m q] eqn:E.
  pose proof (span_app _ _ _ _ E) as A. pose proof (span_all _ _ _ _ E) as F. pose proof (span_stop _ _ _ _ E) as P.
  assert (S0 : s = o ++ m ++ q).
  { rewrite <- A. unfold o. destruct (ceq (at_ s 0) "/") eqn:Z; [|reflexivity]. apply ceq_eq in Z.
    destruct s; [discriminate|]. cbn in Z. now subst. }
  assert (FN : Forall in_name m).
  { apply Forall_forall. intros x I. rewrite forallb_forall in F. apply name_byte_in. now apply F. }
  destruct m as [|m0 m1] eqn:M; [discriminate|]. rewrite <- M in *. injection T as <- <- _.
  replace ("<"%char :: s) with (("<"%char :: o ++ m) ++ q) in C by (rewrite S0; cbn; now rewrite <- app_assoc).
  apply no_gt_cut in C as (t' & -> & Q).
  2: { intros [I|I]; [discriminate|]. apply in_app_iff in I as [I|I].
       - unfold o in I. destruct (ceq (at_ s 0) "/"); [destruct I as [I|[]]; discriminate|destruct I].
       - now apply (in_name_gt _ FN). }
  assert (ST : forall c r', t' = c :: r' -> ~ in_name c).
  { intros c r' -> N. rewrite Q in P. cbn in P. apply name_byte_in in N. congruence. }
  assert (NE : m <> []) by (rewrite M; discriminate).
  unfold o. destruct (ceq (at_ s 0) "/"); cbn; rewrite <- ?app_assoc; constructor; assumption.
Qed.
Lemma next_row_ws s r : next_row s = Some r -> exists ws, s = ws ++ r /\ all_ws ws /\ (forall c, In c ws -> c <> "<"%char).
Proof.
  unfold next_row. destruct (span row_white s) as [a b] eqn:E. cbn. destruct (_ || _)%bool; [|discriminate].
  intro H. injection H as <-. exists a. split; [exact (span_app _ _ _ _ E)|]. pose proof (span_all _ _ _ _ E) as F.
  rewrite forallb_forall in F. split; [apply forallb_forall|]; intros c I; specialize (F c I); unfold row_white in F;
    rewrite !Bool.orb_true_iff, !ceq_eq in F.
  - destruct F as [[[->| ->]| ->]| ->]; reflexivity.
  - destruct F as [[[->| ->]| ->]| ->]; discriminate.
Qed.
Lemma block_tag_ok n b v o s p r p' : block_tag n b v o s p = (r, p') -> w_ok (p_w p) ->
  exists t ws, cut_tag s = (t, ws ++ r) /\ all_ws ws /\ (forall c, In c ws -> c <> "<"%char) /\
    writes (2 * p_indent p + 2) t (p_w p) (p_w p') /\
    p_pre p' = p_pre p /\ p_indent p' <= (if b then p_indent p - 1 else S (p_indent p)).
Proof.
  unfold block_tag. intros E Hw. set (row := seq_ n (B "tr")) in *.
  match type of E with context [on_w (w_puts_lt _) ?q] => set (p1 := q) in E end.
  assert (H1 : pads (2 * p_indent p + 1) (p_w p) (p_w p1) /\ p_pre p1 = p_pre p /\
               p_indent p1 = if b then p_indent p - 1 else p_indent p).
  { assert (G : forall (x : bool) q, w_ok (p_w q) ->
      pads (2 * p_indent q + 1) (p_w q) (p_w (write_indent (if x then new_line q else q))) /\
      alike q (write_indent (if x then new_line q else q))).
    { intros x q Hq. destruct x.
      - destruct (new_line_ok q Hq) as [P A]. destruct (write_indent_ok (new_line q) (pads_ok _ _ _ P)) as [P' A'].
        split; [|exact (alike_trans _ _ _ A A')].
        apply (pads_le (1 + 2 * p_indent (new_line q))); [destruct A as [-> _]; lia|]. exact (pads_trans _ _ _ _ _ P P').
      - destruct (write_indent_ok q Hq) as [P A]. split; [|assumption]. apply (pads_le (2 * p_indent q)); [lia|assumption]. }
    unfold p1. destruct b.
    - set (q := set_indent (p_indent p - 1) p). specialize (G (negb (p_ls q) && negb (p_inl q) && negb row)%bool q Hw).
      destruct G as [G A]. change (p_indent q) with (p_indent p - 1) in G.
      destruct row; cbn [p_w set_row p_pre p_indent]; (split; [refine (pads_le _ _ _ _ _ G); lia|
        split; [apply A|apply A]]).
    - specialize (G (negb (p_ls p) && negb row)%bool p Hw). destruct G as [G A].
      destruct row; cbn [p_w set_row p_pre p_indent]; (split; [exact G|split; [apply A|apply A]]). }
  clearbody p1. destruct H1 as (P1 & A1 & I1).
  destruct (cut_tag s) as [t q] eqn:C.
  pose proof (puts_lt t _ (pads_ok _ _ _ P1)) as PT. pose proof (put_pads NL _ eq_refl (proj1 PT)) as PN.
  set (p2 := on_w (w_puts_lt t) p1) in *.
  assert (FIN : forall p3 : ps, p_w p3 = w_put NL (p_w p2) -> writes (2 * p_indent p + 2) t (p_w p) (p_w p3)).
  { intros p3 ->. exists (p_w p1), (p_w p2), (2 * p_indent p + 1), 1. split; [lia|]. auto. }
  set (nx := if (b && row)%bool then next_row q else None) in *.
  assert (NX : exists ws, q = ws ++ match nx with Some r' => r' | None => q end /\ all_ws ws /\ (forall c, In c ws -> c <> "<"%char)).
  { unfold nx. destruct (b && row)%bool; [destruct (next_row q) eqn:N; [exact (next_row_ws _ _ N)|]|];
      (exists []; split; [reflexivity|split; [reflexivity|intros c []]]). }
  destruct NX as (ws & Q & AW & NL'). injection E as <- <-. exists t, ws. split; [now rewrite <- Q|]. split; [assumption|].
  split; [assumption|].
  assert (I2 : p_indent p2 = if b then p_indent p - 1 else p_indent p) by exact I1.
  assert (A2 : p_pre p2 = p_pre p) by exact A1. clearbody p2 nx. clear - FIN I1 I2 A2.
  destruct (negb b && negb v && negb o)%bool eqn:Z.
  - split; [apply FIN; reflexivity|]. split; [exact A2|]. destruct b; [discriminate|]. cbn in *. lia.
  - destruct row; [destruct nx as [r'|]; [destruct (is_tr r')|]|]; (split; [apply FIN; reflexivity|]; split; [exact A2|]);
      cbn [p_indent new_line set_row set_ls on_w]; rewrite I2; destruct b; lia.
Qed.

Definition turn (q : piece) (d : nat) (v : bool) (d' : nat) (v' : bool) : Prop :=
  forall l, lies l d v -> lies (l ++ [q]) d' v'.
Lemma in_list_in n l : in_list n l = true <-> In n l.
Proof.
  unfold in_list. rewrite existsb_exists. split.
  - intros (x & I & E). apply seq_eq in E. now subst.
  - intro I. exists n. split; [assumption|]. now apply seq_eq.
Qed.
Lemma named_cons t b n : named t b n -> t <> [].
Proof. intros H. now destruct H. Qed.
Lemma step_ok c s p r p' : step c s p = (r, p') -> w_ok (p_w p) ->
  exists q ws, c :: s = bytes q ++ ws ++ r /\ bytes q <> [] /\ all_ws ws /\
    (forall l, cut r l -> cut (c :: s) (q :: map Byte ws ++ l)) /\
    writes (2 * p_indent p + 2) (bytes q) (expand (p_w p)) (p_w p') /\
    (forall d, p_indent p <= d -> exists d', p_indent p' <= d' /\ d' <= S d /\ turn q d (p_pre p) d' (p_pre p')).
Proof.
  intros E Hw. destruct (expand_ok _ Hw) as [Hx _]. unfold step in E.
  destruct (if ceq c "<" then tag_name s else None) as [[[n b] v]|] eqn:T.
  - destruct (ceq c "<") eqn:Cc; [|discriminate]. apply ceq_eq in Cc. subst c.
    assert (O : opens ("<"%char :: s)) by (apply tag_opens; eauto).
    set (p0 := on_w expand p) in *.
    set (p1 := if (seq_ n (B "pre") || seq_ n (B "code"))%bool then set_pre (negb b) p0 else p0) in *.
    assert (W1 : p_w p1 = expand (p_w p)) by (unfold p1; destruct (_ || _)%bool; reflexivity).
    assert (I1 : p_indent p1 = p_indent p) by (unfold p1; destruct (_ || _)%bool; reflexivity).
    assert (V1 : p_pre p1 = if (seq_ n (B "pre") || seq_ n (B "code"))%bool then negb b else p_pre p)
      by (unfold p1; destruct (_ || _)%bool; reflexivity).
    clearbody p1. clear p0.
    destruct (in_list n block_tags && negb (p_pre p1))%bool eqn:K.
    + destruct (block_tag_ok _ _ _ _ _ _ _ _ E) as (t & ws & C & AW & NL' & W & P & I); [now rewrite W1|].
      exists (Tag t), ws. pose proof (tag_named _ _ _ _ _ _ T C) as NM.
      destruct (cut_tag_spec _ _ _ C) as [S0 _]. split; [assumption|]. split; [exact (named_cons _ _ _ NM)|]. split; [assumption|].
      split; [intros l Cl; apply (cut_tag_cut _ _ _ C O); now apply cut_bytes|].
      split; [now rewrite <- W1, <- I1|]. apply Bool.andb_true_iff in K as [K1 K2]. apply Bool.negb_true_iff in K2.
      apply in_list_in in K1. rewrite P, K2. rewrite I1 in I. intros d Ld.
      assert (NC : n <> B "code").
      { intros ->. apply in_list_in in K1. vm_compute in K1. discriminate. }
      destruct b.
      * exists (d - 1). split; [lia|]. split; [lia|]. intros l Y. destruct (seq_ n (B "pre")) eqn:NP.
        { apply seq_eq in NP. subst n. now apply (y_unpre l d (p_pre p)). }
        assert (NP' : n <> B "pre") by (intros ->; apply Bool.not_true_iff_false in NP; apply NP; now apply seq_eq).
        assert (NC' : seq_ n (B "code") = false) by (apply Bool.not_true_iff_false; rewrite seq_eq; assumption).
        rewrite NC' in V1. cbn in V1. rewrite <- V1, K2 in Y. now apply (y_close l d t n).
      * exists (S d). split; [lia|]. split; [lia|]. intros l Y. destruct (seq_ n (B "pre")) eqn:NP; [cbn in V1; congruence|].
        assert (NP' : n <> B "pre") by (intros ->; apply Bool.not_true_iff_false in NP; apply NP; now apply seq_eq).
        assert (NC' : seq_ n (B "code") = false) by (apply Bool.not_true_iff_false; rewrite seq_eq; assumption).
        rewrite NC' in V1. cbn in V1. rewrite <- V1, K2 in Y. now apply (y_open l d t n).
    + set (p2 := if in_list n inline_tags then set_inl (negb b) p1 else p1) in *.
      assert (W2 : p_w p2 = expand (p_w p)) by (unfold p2; destruct (in_list n inline_tags); exact W1).
      assert (I2 : p_indent p2 = p_indent p) by (unfold p2; destruct (in_list n inline_tags); exact I1).
      assert (V2 : p_pre p2 = p_pre p1) by (unfold p2; destruct (in_list n inline_tags); reflexivity).
      clearbody p2. destruct (cut_tag ("<"%char :: s)) as [t q] eqn:C. injection E as <- <-.
      exists (Tag t), []. pose proof (tag_named _ _ _ _ _ _ T C) as NM.
      destruct (cut_tag_spec _ _ _ C) as [S0 _]. split; [assumption|]. split; [exact (named_cons _ _ _ NM)|]. split; [reflexivity|].
      split; [intros l Cl; now apply (cut_tag_cut _ _ _ C O)|].
      split.
      { exists (expand (p_w p)), (w_puts_lt t (expand (p_w p))), 0, 0. split; [lia|]. split; [now apply pads_refl|].
        split; [now apply puts_lt|]. cbn. rewrite W2. apply pads_refl, w_puts_lt_ok. assumption. }
      intros d Ld. exists d. cbn [p_indent on_w p_pre]. rewrite I2, V2. split; [lia|]. split; [lia|]. intros l Y.
      destruct (seq_ n (B "pre") || seq_ n (B "code"))%bool eqn:NP.
      * apply Bool.orb_true_iff in NP. rewrite !seq_eq in NP. rewrite V1. destruct b.
        { destruct NP as [->| ->]; [|now apply (y_uncode l d (p_pre p))].
          exfalso. rewrite V1 in K. discriminate. }
        now apply (y_code l d (p_pre p) t n).
      * apply Bool.orb_false_iff in NP as [NP NC]. rewrite V1.
        assert (NP' : n <> B "pre") by (intros ->; apply Bool.not_true_iff_false in NP; apply NP; now apply seq_eq).
        assert (NC' : n <> B "code") by (intros ->; apply Bool.not_true_iff_false in NC; apply NC; now apply seq_eq).
        apply Bool.andb_false_iff in K. rewrite V1 in K. destruct K as [K|K].
        { apply (y_other l d (p_pre p) t b n); auto. intro I. apply (in_list_in n block_tags) in I. congruence. }
        apply Bool.negb_false_iff in K. rewrite K in *. now apply (y_off l d t b n).
  - injection E as <- <-. exists (Byte c), []. split; [reflexivity|]. split; [discriminate|]. split; [reflexivity|]. split.
    { intros l Cl. apply c_byte; [|assumption]. intro O. pose proof (opens_lt _ _ O) as ->. cbn in T.
      apply tag_opens in O as (x & O). congruence. }
    set (p0 := on_w expand p).
    assert (G : exists p1, pads (2 * p_indent p) (expand (p_w p)) (p_w p1) /\ alike p p1 /\
                p_w (content c p0) = w_put c (p_w p1) /\ alike p1 (content c p0)).
    { unfold content. set (g := (negb (p_ls p0) || p_pre p0 || negb (ceq c NL))%bool).
      exists (if g then write_indent p0 else p0). destruct g.
      - destruct (write_indent_ok p0 Hx) as [Pw A]. split; [exact Pw|]. split; [exact A|].
        destruct (ceq c NL); [|destruct (isspace c)]; (split; [reflexivity|split; reflexivity]).
      - split; [apply (pads_le 0); [lia|]; now apply pads_refl|]. split; [split; reflexivity|].
        destruct (ceq c NL); [|destruct (isspace c)]; (split; [reflexivity|split; reflexivity]). }
    destruct G as (p1 & Pw & [A1 A2] & -> & [A3 A4]). split.
    { exists (p_w p1), (w_put c (p_w p1)), (2 * p_indent p), 0. split; [lia|]. split; [assumption|].
      pose proof (pads_ok _ _ _ Pw). split; [now apply puts_1|]. now apply pads_refl, w_put_ok. }
    intros d Ld. exists d. rewrite A3, A4, A1, A2. split; [lia|]. split; [lia|]. intros l Y. now apply y_byte.
Qed.

(** ** The cut is a function *)
Lemma gt_uniq t : forall s t' s', no_gt t -> no_gt t' -> (t ++ [">"%char]) ++ s = (t' ++ [">"%char]) ++ s' -> t = t' /\ s = s'.
Proof.
  induction t as [|c t IH]; intros s t' s' G G' E; destruct t' as [|c' t']; cbn in E.
  - injection E as E. auto.
  - injection E as E1 E2. exfalso. apply G'. left. congruence.
  - injection E as E1 E2. exfalso. apply G. left. congruence.
  - injection E as E1 E2. destruct (IH s t' s') as [-> ->]; [intro I; apply G; now right|intro I; apply G'; now right|assumption|].
    split; [congruence|reflexivity].
Qed.
Lemma opens_app t s : opens t -> opens (t ++ s).
Proof. intros (o & c & r & -> & O & N). exists o, c, (r ++ s). split; [cbn; now rewrite <- app_assoc|auto]. Qed.
Lemma gt_in t s : In ">"%char ((t ++ [">"%char]) ++ s).
Proof. rewrite !in_app_iff. left. right. now left. Qed.
Lemma cut_fun s l : cut s l -> forall l', cut s l' -> l = l'.
Proof.
  intro C. induction C as [|t s l G O C IH|t G O|c s l O C IH]; intros l' C'.
  - symmetry. now apply cut_nil.
  - remember ((t ++ [">"%char]) ++ s) as z eqn:Z. destruct C' as [|t' s' l' G' O' C'|t' G' O'|c s' l' O' C'].
    + destruct t; discriminate.
    + apply gt_uniq in Z as [-> ->]; auto. f_equal. now apply IH.
    + exfalso. apply G'. rewrite Z. apply gt_in.
    + exfalso. apply O'. rewrite Z. now apply opens_app.
  - remember t as z eqn:Z in C'. destruct C' as [|t' s' l' G' O' C'|t' G' O'|c s' l' O' C'].
    + subst t. destruct O as (o & c & r & H & _). discriminate.
    + exfalso. apply G. rewrite <- Z. apply gt_in.
    + now subst.
    + exfalso. apply O'. now rewrite Z.
  - remember (c :: s) as z eqn:Z. destruct C' as [|t' s' l' G' O' C'|t' G' O'|c' s' l' O' C'].
    + discriminate.
    + exfalso. apply O. now apply opens_app.
    + exfalso. apply O. exact O'.
    + injection Z as -> ->. f_equal. now apply IH.
Qed.

(** ** The loop *)
Lemma lossy_bytes ws : forall l x, lossy l x -> lossy (map Byte ws ++ l) (ws ++ x).
Proof. induction ws as [|c ws IH]; intros l x L; [assumption|]. cbn. apply (l_keep (Byte c)). now apply IH. Qed.
Lemma loop_ok : forall fuel s p, length s < fuel -> w_ok (p_w p) ->
  exists w l x, pretty_loop fuel s p = Some w /\ cut s l /\ lossy l x /\ solid (w_out w) = solid (w_out (p_w p)) ++ solid x.
Proof.
  induction fuel as [|fuel IH]; intros s p L Hw; [lia|]. destruct s as [|c s].
  - exists (w_term (p_w p)), [], []. split; [reflexivity|]. split; [constructor|]. split; [constructor|].
    cbn. now rewrite app_nil_r.
  - cbn [pretty_loop]. destruct (step c s p) as [r p'] eqn:E.
    destruct (step_ok _ _ _ _ _ E Hw) as (q & ws & S0 & NE & AW & C & W & _).
    destruct (expand_ok _ Hw) as [Hx Ox].
    destruct (writes_ok _ _ _ _ Hx W) as (Hw' & _ & _ & K & _).
    assert (LR : length r < fuel).
    { apply (f_equal (@length _)) in S0. rewrite !app_length in S0. cbn in S0, L. destruct (bytes q); [congruence|]. cbn in S0. lia. }
    destruct (IH r p' LR Hw') as (w & l & x & R & Cl & Ll & SO).
    exists w, (q :: map Byte ws ++ l). rewrite Ox in K.
    assert (LL : lossy (map Byte ws ++ l) (ws ++ x)) by now apply lossy_bytes.
    destruct K as [K|K]; [exists (bytes q ++ ws ++ x)|exists (ws ++ x)]; (split; [assumption|]; split; [now apply C|]).
    + split; [now apply l_keep|]. rewrite SO, K, !solid_app, (solid_ws _ AW), <- app_assoc. reflexivity.
    + split; [now apply l_lose|]. rewrite SO, K, !solid_app, (solid_ws _ AW). reflexivity.
Qed.
Lemma cut_exists s : exists l, cut s l.
Proof.
  destruct (loop_ok (S (length s)) s (Ps (w_new 0 0) 0 true false false false)) as (w & l & x & _ & C & _); [lia|split; reflexivity|eauto].
Qed.
Lemma pretty_ok html : exists out oob l x, pretty html = Some (out, oob) /\ cut html l /\ lossy l x /\ solid out = solid x.
Proof.
  unfold pretty.
  destruct (loop_ok (S (length html)) html (Ps (w_new (length html * 2) (length html * 2)) 0 true false false false))
    as (w & l & x & E & C & L & SO); [lia|split; reflexivity|].
  rewrite E. cbn [option_map]. exists (collapse 0 (w_out w)), (w_oob w), l, x. rewrite solid_collapse. auto.
Qed.

(** ** Short tags, not nested deeply *)
Lemma lies_bytes ws : forall l d v, lies l d v -> lies (l ++ map Byte ws) d v.
Proof.
  induction ws as [|c ws IH]; intros l d v H; cbn; [now rewrite app_nil_r|].
  change (Byte c :: map Byte ws) with ([Byte c] ++ map Byte ws). rewrite app_assoc. apply IH. now apply y_byte.
Qed.
Definition roomy (n : nat) (s : str) (p : ps) : Prop :=
  100 <= w_cap (p_w p) \/
  exists j, p_indent p <= j /\ w_cap (p_w p) = 2 * n * 2 ^ j /\ length (w_out (p_w p)) + length s <= n + j * (j + 1).
Lemma small_fit n j : 0 < n -> 2 * n * 2 ^ j < 100 -> (j + 1) * (j + 2) + n < 2 * (2 * n * 2 ^ j).
Proof.
  intros Hn H. assert (J : j <= 5).
  { destruct (Nat.le_gt_cases j 5) as [|G]; [assumption|]. exfalso.
    assert (2 ^ 6 <= 2 ^ j) by (apply Nat.pow_le_mono_r; lia). change (2 ^ 6) with 64 in *. nia. }
  destruct j as [|[|[|[|[|[|j]]]]]]; [| | | | | |lia]; cbn [Nat.pow] in *; lia.
Qed.
(** [l]: all pieces; [a]: the pieces read so far. *)
Definition fits (n : nat) (l a : list piece) (s : str) (p : ps) : Prop :=
  moderate l /\ w_ok (p_w p) /\ 0 < w_rem (p_w p) /\ roomy n s p /\
  (exists b, l = a ++ b /\ cut s b) /\ (exists d, lies a d (p_pre p) /\ p_indent p <= d).
Lemma step_fits n l a c s p r p' : 0 < n -> fits n l a (c :: s) p -> step c s p = (r, p') ->
  exists q ws, c :: s = bytes q ++ ws ++ r /\ bytes q <> [] /\ all_ws ws /\
    (forall l, cut r l -> cut (c :: s) (q :: map Byte ws ++ l)) /\
    length (bytes q) < w_rem (expand (p_w p)) /\
    solid (w_out (p_w p')) = solid (w_out (p_w p)) ++ solid (bytes q) /\
    fits n l ((a ++ [q]) ++ map Byte ws) r p'.
Proof.
  intros Hn (M & Hw & Hr & RM & (b & El & Cb) & (d & Y & I)) E.
  destruct (step_ok _ _ _ _ _ E Hw) as (q & ws & S0 & NE & AW & C & W & T).
  destruct (expand_ok _ Hw) as [Hx Ox].
  destruct (writes_ok _ _ _ _ Hx W) as (Hw' & Cc & LO & _ & K). rewrite Ox in LO, K.
  destruct (cut_exists r) as (b' & Cr). pose proof (cut_fun _ _ Cb _ (C _ Cr)) as Eb. subst b.
  pose proof (M a q (map Byte ws ++ b') d (p_pre p) El Y) as MQ.
  assert (LS : length (c :: s) = length (bytes q) + length ws + length r) by (rewrite S0, !app_length; lia).
  assert (ROOM : length (bytes q) + (2 * p_indent p + 2) < w_rem (expand (p_w p)) /\ roomy n r p').
  { destruct RM as [RM|(j & Ij & Cj & Lj)].
    - split; [|left; rewrite Cc; unfold expand; destruct (Nat.ltb _ _); cbn; lia].
      unfold expand. destruct (Nat.ltb_spec (w_rem (p_w p)) 100); cbn; [|lia].
      destruct Hw as [Hw _]. lia.
    - destruct (Nat.le_gt_cases 100 (w_cap (p_w p))) as [G|G].
      + split; [|left; rewrite Cc; unfold expand; destruct (Nat.ltb _ _); cbn; lia].
        unfold expand. destruct (Nat.ltb_spec (w_rem (p_w p)) 100); cbn; [|lia].
        destruct Hw as [Hw _]. lia.
      + assert (X : expand (p_w p) = Wr (w_cap (p_w p) * 2) (w_out (p_w p)) (w_cap (p_w p) * 2 - length (w_out (p_w p))) (w_oob (p_w p))).
        { unfold expand. destruct (Nat.ltb_spec (w_rem (p_w p)) 100); [reflexivity|]. destruct Hw as [Hw _]. lia. }
        rewrite Cj in G. pose proof (small_fit n j Hn G) as SF. rewrite <- Cj in SF.
        split; [rewrite X; cbn; nia|]. right. exists (S j).
        destruct (T (p_indent p) (le_n _)) as (d' & Id & Ld & _). split; [lia|].
        split; [rewrite Cc, X; cbn [w_cap]; rewrite Cj; cbn [Nat.pow]; lia|]. nia. }
  destruct ROOM as [ROOM RM']. destruct (K ROOM) as [K1 K2]. destruct (T d I) as (d' & Id & _ & TT).
  exists q, ws. split; [assumption|]. split; [assumption|]. split; [assumption|]. split; [assumption|]. split; [lia|].
  split; [assumption|]. split; [assumption|]. split; [assumption|]. split; [assumption|]. split; [assumption|].
  split; [exists b'; split; [rewrite El, <- !app_assoc; reflexivity|assumption]|].
  exists d'. split; [apply lies_bytes; now apply TT|assumption].
Qed.
Lemma step_shorter c s (q : piece) (ws r : str) : c :: s = bytes q ++ ws ++ r -> bytes q <> [] -> length r <= length s.
Proof.
  intros S0 NE. apply (f_equal (@length _)) in S0. rewrite !app_length in S0. cbn in S0.
  destruct (bytes q); [congruence|]. cbn in S0. lia.
Qed.
Lemma loop_fits n l : 0 < n -> forall fuel s p a, fits n l a s p -> length s < fuel ->
  exists w, pretty_loop fuel s p = Some w /\ w_oob w = false /\ solid (w_out w) = solid (w_out (p_w p)) ++ solid s.
Proof.
  intro Hn. induction fuel as [|fuel IH]; intros s p a F L; [lia|]. destruct s as [|c s].
  - exists (w_term (p_w p)). split; [reflexivity|]. split; [apply w_term_safe; apply F|]. cbn. now rewrite app_nil_r.
  - cbn [pretty_loop]. destruct (step c s p) as [r p'] eqn:E.
    destruct (step_fits _ _ _ _ _ _ _ _ Hn F E) as (q & ws & S0 & NE & AW & _ & _ & K & F').
    pose proof (step_shorter _ _ _ _ _ S0 NE) as LR. cbn in L.
    destruct (IH r p' _ F' ltac:(lia)) as (w & R & O & SO).
    exists w. split; [assumption|]. split; [assumption|].
    rewrite SO, K, S0, !solid_app, (solid_ws _ AW), <- app_assoc. reflexivity.
Qed.
Definition start (html : str) : ps := Ps (w_new (length html * 2) (length html * 2)) 0 true false false false.
Lemma start_fits html l : html <> [] -> cut html l -> moderate l ->
  0 < length html /\ fits (length html) l [] html (start html).
Proof.
  intros NE C M. assert (Hn : 0 < length html) by (destruct html; [congruence|cbn; lia]). split; [assumption|].
  split; [assumption|]. split; [split; reflexivity|]. split; [cbn; lia|]. split; [right; exists 0; cbn; lia|].
  split; [exists l; auto|]. exists 0. split; [constructor|cbn; lia].
Qed.
Lemma pretty_fits html l : html <> [] -> cut html l -> moderate l ->
  exists out, pretty html = Some (out, false) /\ solid out = solid html.
Proof.
  intros NE C M. unfold pretty. destruct (start_fits _ _ NE C M) as [Hn F].
  destruct (loop_fits _ _ Hn (S (length html)) _ _ _ F) as (w & E & O & SO); [lia|]. fold (start html).
  rewrite E. cbn [option_map]. rewrite O. exists (collapse 0 (w_out w)). rewrite solid_collapse. auto.
Qed.
