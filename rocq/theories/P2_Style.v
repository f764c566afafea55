(** Words of the styles on the terminal: C335, C336. *)
From Verif Require Import Base BaseL Dec L_ImgUrl M_Style S_Style L_Style.
Local Open Scope N_scope.

(** The names of colours and what may come before them *)
Definition colours : list (str * N) := [(B "black", 0); (B "red", 1); (B "green", 2); (B "yellow", 3); (B "blue", 4); (B "magenta", 5); (B "cyan", 6); (B "white", 7)].
Definition befores : list (str * N) := [(B "", 30); (B "on_", 40); (B "intense_", 90); (B "bright_", 90); (B "on_intense_", 100); (B "on_bright_", 100)].
Definition flags : list (str * str) := [(B "b", B "1"); (B "bold", B "1"); (B "d", B "2"); (B "dark", B "2"); (B "i", B "3"); (B "italic", B "3"); (B "u", B "4"); (B "underline", B "4"); (B "underscore", B "4"); (B "r", B "7"); (B "reverse", B "7"); (B "negative", B "7")].
Definition hexas (s : str) : Prop := Forall (fun c => exists n, hexa c n) s.

(** C335. The names and flags mean what they say, and no word but those, colours in hexadecimal and the raw ones gives anything. *)
Theorem C335_names wide p o n k : In (p, o) befores -> In (n, k) colours -> style wide (p ++ n) = esc :: B "[" ++ dec (N.to_nat (o + k)) ++ B "m".
Proof.
  intros P C. repeat (destruct P as [P|P]; [injection P as <- <-; repeat (destruct C as [C|C]; [injection C as <- <-; destruct wide; vm_compute; reflexivity|]); destruct C|]). destruct P.
Qed.
Theorem C335_flags wide w k : In (w, k) flags -> style wide w = esc :: B "[" ++ k ++ B "m".
Proof. intro P. repeat (destruct P as [P|P]; [injection P as <- <-; destruct wide; vm_compute; reflexivity|]). destruct P. Qed.

Lemma hexa_nibble c n : nibble c = Some n -> exists n, hexa c n.
Proof.
  assert (K : forall c, match nibble c with Some _ => existsb (ceq c) (map fst digits) | None => true end = true) by (apply byte_forall; vm_compute; reflexivity).
  intro E. specialize (K c). rewrite E in K. apply existsb_exists in K as (d & I & D). apply ceq_eq in D. subst d. apply in_map_iff in I as ([x m] & X & I). cbn in X. subst x. exists m. exact I.
Qed.
Lemma rgb_inv h v : rgb h = Some v -> exists q d, (q = [] \/ q = B "#") /\ h = q ++ d /\ hexas d /\ (length d = 3 \/ length d = 6)%nat.
Proof.
  intro E. unfold rgb in E. set (p := match h with c :: r => if ceq c "#" then r else h | [] => h end) in E.
  assert (Q : exists q, (q = [] \/ q = B "#") /\ h = q ++ p). { subst p. destruct h as [|c r]; [exists []; auto|]. destruct (ceq c "#") eqn:C; [apply ceq_eq in C; subst; exists (B "#"); auto|exists []; auto]. }
  clearbody p. destruct Q as (q & Q & Eq). exists q, p. split; [exact Q|]. split; [exact Eq|]. clear Q Eq. unfold hexas.
  destruct p as [|a [|b [|c p]]]; try discriminate. destruct p as [|d [|e [|f [|g p]]]]; try discriminate.
  - destruct (nibble a) eqn:A; [|discriminate]. destruct (nibble b) eqn:Bb; [|discriminate]. destruct (nibble c) eqn:C; [|discriminate]. split; [repeat constructor; eapply hexa_nibble; eassumption|now left].
  - destruct (nibble a) eqn:A; [|discriminate]. destruct (nibble b) eqn:Bb; [|discriminate]. destruct (nibble c) eqn:C; [|discriminate]. destruct (nibble d) eqn:D; [|discriminate]. destruct (nibble e) eqn:Ee; [|discriminate]. destruct (nibble f) eqn:F; [|discriminate]. split; [repeat constructor; eapply hexa_nibble; eassumption|now right].
Qed.
Lemma place_in s : forall l k m, place s l k = Some m -> In s (map B l).
Proof. induction l as [|x l IH]; intros k m E; cbn [place] in E; [discriminate|]. destruct (seq_ s (B x)) eqn:X; [left; symmetry; now apply seq_same|right; eapply IH; exact E]. Qed.
Lemma colour_name n m : place n names 0 = Some m -> exists k, In (n, k) colours.
Proof. intro E. apply place_in in E. cbn [map names] in E. repeat (destruct E as [E|E]; [subst n; eexists; vm_compute; tauto|]). destruct E. Qed.
Lemma upper_no n m : between 65 90 (at_ n 0) = true -> place n names 0 = Some m -> False.
Proof. intros U E. apply place_in in E. cbn [map names] in E. repeat (destruct E as [E|E]; [subst n; discriminate U|]). destruct E. Qed.
Lemma skip_start p s : starts p s = true -> s = p ++ skipn (length p) s.
Proof. intro E. apply starts_spec in E as (r & ->). rewrite skipn_app, skipn_all, Nat.sub_diag. reflexivity. Qed.
Lemma color_inv t m : color t = Some m -> exists p o n k, In (p, o) befores /\ In (n, k) colours /\ t = p ++ n.
Proof.
  unfold color. destruct (starts (B "on_") t) eqn:O.
  - apply skip_start in O. cbn [length B list_ascii_of_string] in O. set (u := skipn 3 t) in *. clearbody u. subst t. destruct (starts (B "intense_") u) eqn:I; [|destruct (starts (B "bright_") u) eqn:J].
    + apply skip_start in I. cbn [length B list_ascii_of_string] in I. destruct (place (skipn 8 u) names 0) eqn:P; [|discriminate]. intros _. apply colour_name in P as (k & P). exists (B "on_intense_"), 100, (skipn 8 u), k. split; [vm_compute; tauto|]. split; [exact P|]. rewrite I at 1. reflexivity.
    + apply skip_start in J. cbn [length B list_ascii_of_string] in J. destruct (place (skipn 7 u) names 0) eqn:P; [|discriminate]. intros _. apply colour_name in P as (k & P). exists (B "on_bright_"), 100, (skipn 7 u), k. split; [vm_compute; tauto|]. split; [exact P|]. rewrite J at 1. reflexivity.
    + destruct (place u names 0) eqn:P; [|discriminate]. intros _. apply colour_name in P as (k & P). exists (B "on_"), 40, u, k. split; [vm_compute; tauto|]. split; [exact P|reflexivity].
  - destruct (starts (B "bg") t && between 65 90 (at_ t 2)) eqn:G.
    + apply andb_prop in G as (G & U). apply starts_spec in G as (r & ->). change (skipn 2 (B "bg" ++ r)) with r. change (at_ (B "bg" ++ r) 2) with (at_ r 0) in U.
      destruct (starts (B "intense_") r) eqn:I; [apply starts_spec in I as (x & ->); discriminate U|]. destruct (starts (B "bright_") r) eqn:J; [apply starts_spec in J as (x & ->); discriminate U|].
      destruct (place r names 0) eqn:P; [|discriminate]. destruct (upper_no _ _ U P).
    + clear G O. destruct (starts (B "intense_") t) eqn:I; [|destruct (starts (B "bright_") t) eqn:J].
      * apply skip_start in I. cbn [length B list_ascii_of_string] in I. destruct (place (skipn 8 t) names 0) eqn:P; [|discriminate]. intros _. apply colour_name in P as (k & P). exists (B "intense_"), 90, (skipn 8 t), k. split; [vm_compute; tauto|]. split; [exact P|exact I].
      * apply skip_start in J. cbn [length B list_ascii_of_string] in J. destruct (place (skipn 7 t) names 0) eqn:P; [|discriminate]. intros _. apply colour_name in P as (k & P). exists (B "bright_"), 90, (skipn 7 t), k. split; [vm_compute; tauto|]. split; [exact P|exact J].
      * destruct (place t names 0) eqn:P; [|discriminate]. intros _. apply colour_name in P as (k & P). exists [], 30, t, k. split; [vm_compute; tauto|]. split; [exact P|reflexivity].
Qed.
Lemma is_in t l : is_ t l = true -> In t (map B l).
Proof. unfold is_. intro E. apply existsb_exists in E as (x & I & X). apply seq_same in X. subst t. now apply in_map. Qed.
Theorem C335_known wide t : Forall (fun c => isspace c = false) t -> (length t <= 63)%nat -> style wide t <> [] ->
  (exists k, In (t, k) flags) \/ (exists p o n k, In (p, o) befores /\ In (n, k) colours /\ t = p ++ n) \/
  (exists p d, In p [B "#"; B "bg"; B "on_"; B "bg#"; B "on_#"] /\ hexas d /\ (length d = 3 \/ length d = 6)%nat /\ t = p ++ d) \/
  (exists x, t = B "38;5;" ++ x \/ t = B "48;5;" ++ x).
Proof.
  intros F L N. destruct t as [|c0 t0] eqn:Et; [now destruct N|]. rewrite <- Et in *. rewrite style_one in N by (try assumption; subst; discriminate). clear Et c0 t0 F L. unfold token in N.
  repeat match type of N with (if is_ t ?l then _ else _) <> _ => let E := fresh in destruct (is_ t l) eqn:E; [left; apply is_in in E; cbn [map] in E; repeat (destruct E as [E|E]; [subst t; eexists; vm_compute; tauto|]); destruct E|clear E] end.
  destruct (starts (B "38;5;") t) eqn:S1; [right; right; right; apply starts_spec in S1 as (r & ->); exists r; now left|].
  destruct (starts (B "48;5;") t) eqn:S2; [right; right; right; apply starts_spec in S2 as (r & ->); exists r; now right|]. cbn [orb] in N.
  assert (K : named t <> [] -> exists p o n k, In (p, o) befores /\ In (n, k) colours /\ t = p ++ n) by (unfold named; destruct (color t) as [m|] eqn:C; [intros _; eapply color_inv; exact C|intro Z; now destruct Z]).
  destruct (ceq (at_ t 0) "#" || starts (B "bg") t || starts (B "on_") t) eqn:H; [|right; left; now apply K].
  destruct (starts (B "bg") t) eqn:G; [|destruct (starts (B "on_") t) eqn:O].
  - destruct (rgb (skipn 2 t)) as [v|] eqn:R; [|right; left; now apply K]. right; right; left. apply rgb_inv in R as (q & d & Q & E & D & Ld). apply skip_start in G. change (length (B "bg")) with 2%nat in G. rewrite E in G. exists (B "bg" ++ q), d. split; [destruct Q as [-> | ->]; cbn; tauto|]. split; [exact D|]. split; [exact Ld|]. now rewrite <- app_assoc.
  - destruct (rgb (skipn 3 t)) as [v|] eqn:R; [|right; left; now apply K]. right; right; left. apply rgb_inv in R as (q & d & Q & E & D & Ld). apply skip_start in O. change (length (B "on_")) with 3%nat in O. rewrite E in O. exists (B "on_" ++ q), d. split; [destruct Q as [-> | ->]; cbn; tauto|]. split; [exact D|]. split; [exact Ld|]. now rewrite <- app_assoc.
  - destruct (rgb t) as [v|] eqn:R; [|right; left; now apply K]. right; right; left. apply rgb_inv in R as (q & d & Q & E & D & Ld). destruct Q as [-> | ->]; [|exists (B "#"), d; split; [cbn; tauto|auto]].
    exfalso. cbn [app] in E. subst d. destruct t as [|c r]; [destruct Ld; discriminate|]. rewrite !orb_false_r in H. cbn in H. apply ceq_eq in H. subst c. apply Forall_inv in D as (n & D). apply hexa_byte in D as (D & _). congruence.
Qed.
Example C335_case : style false (B "on_bright_red") = esc :: B "[101m" /\ style true (B "underscore") = esc :: B "[4m" /\ style true (B "pink") = [] /\ style true (B "ff0000") = [].
Proof. vm_compute. repeat split. Qed.
Print Assumptions C335_names.
Print Assumptions C335_flags.
Print Assumptions C335_known.

(** C336. A name behind bg, as the code announces (bgFOO), is a colour of the background as it is behind on_. False for every word behind bg: unless it is one in hexadecimal it gives nothing. *)
Theorem C336_refuted wide t : Forall (fun c => isspace c = false) t -> (length t <= 61)%nat ->
  (forall q d, q = [] \/ q = B "#" -> t = q ++ d -> hexas d -> (length d <> 3 /\ length d <> 6)%nat) -> style wide (B "bg" ++ t) = [].
Proof.
  intros F L H. destruct (style wide (B "bg" ++ t)) as [|c s] eqn:E; [reflexivity|exfalso].
  destruct (C335_known wide (B "bg" ++ t)) as [(k & K)|[(p & o & n & k & P & C & T)|[(p & d & P & D & Ld & T)|(x & [X|X])]]]; try discriminate X.
  - apply Forall_app. split; [repeat constructor|exact F].
  - rewrite app_length. cbn. lia.
  - rewrite E. discriminate.
  - cbn in K. repeat (destruct K as [K|K]; [discriminate K|]). destruct K.
  - cbn in P. repeat (destruct P as [P|P]; [injection P as <- <-; try discriminate T; cbn in C; repeat (destruct C as [C|C]; [injection C as <- <-; discriminate T|]); destruct C|]). destruct P.
  - destruct P as [<-|[<-|[<-|[<-|[<-|[]]]]]]; try discriminate T.
    + injection T as T. destruct (H [] d (or_introl eq_refl) T D). tauto.
    + injection T as T. destruct (H (B "#") d (or_intror eq_refl) T D). tauto.
Qed.
(** What holds: behind on_ every name is, and so is every name in hexadecimal digits behind bg, as one behind on_. *)
Theorem C336_same_partial wide d : hexas d -> (length d = 3 \/ length d = 6)%nat -> style wide (B "bg" ++ d) = style wide (B "on_" ++ d) /\ style wide (B "bg#" ++ d) = style wide (B "on_#" ++ d).
Proof.
  intros D L. assert (F : Forall (fun c => isspace c = false) d) by (eapply Forall_impl; [|exact D]; intros c (n & H); eapply hexa_solid; exact H).
  assert (R : exists r g b, rgb d = Some (r, g, b) /\ rgb (B "#" ++ d) = Some (r, g, b)).
  { destruct L as [L|L].
    - destruct d as [|x [|y [|z [|? ?]]]]; try discriminate L. inversion D as [|? ? (a & H1) D1]; subst. inversion D1 as [|? ? (b & H2) D2]; subst. inversion D2 as [|? ? (c & H3) D3]; subst. do 3 eexists. rewrite (rgb_plain _ _ _ H1). split; eapply rgb3; eassumption.
    - destruct d as [|x [|x' [|y [|y' [|z [|z' [|? ?]]]]]]]; try discriminate L. inversion D as [|? ? (a & H1) D1]; subst. inversion D1 as [|? ? (a' & H2) D2]; subst. inversion D2 as [|? ? (b & H3) D3]; subst. inversion D3 as [|? ? (b' & H4) D4]; subst. inversion D4 as [|? ? (c & H5) D5]; subst. inversion D5 as [|? ? (c' & H6) D6]; subst. do 3 eexists. rewrite (rgb_plain _ _ _ H1). split; eapply rgb6; eassumption. }
  destruct R as (r & g & b & R1 & R2). rewrite !style_one; try discriminate; try (apply Forall_app; split; [repeat constructor|exact F]); try (rewrite app_length; cbn; lia). split.
  - now rewrite (tok_bg _ _ _ _ _ R1), (tok_on _ _ _ _ _ R1).
  - change (B "bg#" ++ d) with (B "bg" ++ B "#" ++ d). change (B "on_#" ++ d) with (B "on_" ++ B "#" ++ d). now rewrite (tok_bg _ _ _ _ _ R2), (tok_on _ _ _ _ _ R2).
Qed.
Example C336_case : style true (B "bgRed") = [] /\ style true (B "bgred") = [] /\ style true (B "on_red") = esc :: B "[41m" /\ style true (B "bgFAD") = style true (B "on_FAD").
Proof. vm_compute. repeat split. Qed.
Print Assumptions C336_refuted.
Print Assumptions C336_same_partial.
