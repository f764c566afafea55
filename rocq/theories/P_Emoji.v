(** C167-C178: emoji names in Markdown, in text for the terminal and in HTML. *)
From Verif Require Import Base BaseL M_Emoji M_EmojiData S_Emoji L_Emoji L_Emoji2.

(** The table of the program. *)
Lemma github_one : one_byte github.
Proof.
  assert (H : existsb (fun e => seq_ (ename e) (B "a")) github = true) by (vm_compute; reflexivity).
  apply existsb_exists in H as (e & I & E). apply seq_eq in E. exists e, "a"%char. split; [exact I|exact E].
Qed.
Lemma github_small : small github.
Proof.
  assert (H : forallb (fun e => match unicode e with Some u => length u <? 3 * (length (ename e) + 2) | None => true end) github = true) by (vm_compute; reflexivity).
  intros e u I U. rewrite forallb_forall in H. specialize (H e I). rewrite U in H. apply Nat.ltb_lt, H.
Qed.
Lemma github_half : forall e u, In e github -> unicode e = Some u -> length (ename e) > 1 -> length u <= 2 * (length (ename e) + 2).
Proof.
  assert (H : forallb (fun e => match unicode e with Some u => (length (ename e) <=? 1) || (length u <=? 2 * (length (ename e) + 2)) | None => true end) github = true) by (vm_compute; reflexivity).
  intros e u I U L. rewrite forallb_forall in H. specialize (H e I). rewrite U in H. apply orb_true_iff in H as [H|H]; apply Nat.leb_le in H; lia.
Qed.
Lemma github_length : length github = 861.
Proof. vm_compute. reflexivity. Qed.

(** * C167: autocorrection *)
(** A time of day becomes a letter. *)
Theorem C167_refuted : exists text t, Forall (fun c => isdigit c = true \/ c = ":"%char) text /\ autocorrect github text = Out t /\ t <> text.
Proof.
  exists (B "12:30:45"), (B "12:a:45"). split; [cbn; repeat (constructor; [cbn; auto|]); constructor|]. split; [vm_compute; reflexivity|discriminate].
Qed.
Print Assumptions C167_refuted.
Theorem C167_partial table text l t : one_byte table -> text <> [] -> Tokens (word blanks) text l ->
  Meaning (fun n x => exists m, Corrected table n m /\ x = between m) l t -> autocorrect table text = Out t.
Proof. exact (autocorrect_tokens table text l t). Qed.
Print Assumptions C167_partial.
(** Every text has such a reading, and there is one correction of a word. *)
Theorem C167_reading table text : exists l t, Tokens (word blanks) text l /\ Meaning (fun n x => exists m, Corrected table n m /\ x = between m) l t.
Proof.
  destruct (tokens_exist blanks (word blanks) (word_dec blanks) (fun n H => H) text) as [l T].
  destruct (meaning_exists (word blanks) (corrected table) text l (corrected_exists table) T) as [t M]. exists l, t. split; [exact T|exact M].
Qed.
Print Assumptions C167_reading.
Theorem C167_unique table n m m' : Corrected table n m -> Corrected table n m' -> m = m'.
Proof. exact (corrected_unique table n m m'). Qed.
Print Assumptions C167_unique.
Lemma tokens_plain (ok : str -> Prop) s r l : ~ In ":"%char s -> Tokens ok r l -> Tokens ok (s ++ r) (map Char s ++ l).
Proof.
  intros N T. induction s as [|c s IH]; [exact T|]. cbn [app map]. constructor; [intros ->; destruct N; left; reflexivity|]. apply IH. intros I. apply N. right. exact I.
Qed.
Lemma meaning_plain R s l t : Meaning R l t -> Meaning R (map Char s ++ l) (s ++ t).
Proof. intros M. induction s as [|c s IH]; [exact M|]. cbn [app map]. constructor. exact IH. Qed.
Lemma tokens_around (ok : str -> Prop) u n v : ~ In ":"%char u -> ~ In ":"%char v -> ok n -> Tokens ok (u ++ between n ++ v) (map Char u ++ Name n :: map Char v ++ []).
Proof.
  intros Nu Nv W. apply tokens_plain; [exact Nu|]. constructor; [exact W|]. rewrite <- (app_nil_r v) at 1. apply tokens_plain; [exact Nv|constructor].
Qed.
Lemma meaning_around (R : str -> str -> Prop) u n v x : R n x -> Meaning R (map Char u ++ Name n :: map Char v ++ []) (u ++ x ++ v).
Proof. intros H. apply meaning_plain. constructor; [exact H|]. rewrite <- (app_nil_r v) at 2. apply meaning_plain. constructor. Qed.
Lemma word_ok (n : str) : (n <> [] /\ length n < 49) -> forallb (fun c => negb (existsb (ceq c) (":"%char :: CR :: blanks))) n = true -> word blanks n /\ word (blanks ++ [CR]) n.
Proof.
  intros [Z L] H. rewrite forallb_forall in H.
  assert (K : forall c, In c n -> c <> ":"%char /\ ~ In c (blanks ++ [CR])).
  { intros c I. specialize (H c I). apply negb_true_iff in H. split.
    - intros ->. discriminate.
    - intros X. assert (existsb (ceq c) (":"%char :: CR :: blanks) = true); [|congruence]. apply existsb_exists. exists c. split; [|apply ceq_refl].
      cbn in X |- *. tauto. }
  assert (N : ~ In ":"%char n) by (intros I; destruct (K _ I) as [X _]; congruence).
  split; (split; [exact Z|]; split; [exact L|]; split; [exact N|]; apply Forall_forall; intros c I X; destruct (K c I) as [_ Y]; apply Y).
  - apply in_or_app. left. exact X.
  - exact X.
Qed.
Example C167_case : word blanks (B "smilee") /\ Nearest 4 github (B "smilee") (B "smile") /\ autocorrect github (B "a :smilee: b") = Out (B "a :smile: b").
Proof.
  split; [apply word_ok; [split; [discriminate|cbn; lia]|reflexivity]|]. split; [|vm_compute; reflexivity].
  pose proof (closest_spec 4 (B "smilee") github [] None (fun e d (H : In e []) => match H with end)) as H.
  assert (E : closest 4 (B "smilee") github None = Some (1, B "smile")) by (vm_compute; reflexivity). rewrite E in H. exact (proj2 H).
Qed.

(** * C168: names of emoji are not corrected *)
(** The name of thumbs down becomes the one of thumbs up. *)
Theorem C168_refuted : exists e, In e github /\ ename e = B "-1" /\ autocorrect github (between (ename e)) = Out (between (B "+1")).
Proof.
  assert (H : existsb (fun e => seq_ (ename e) (B "-1")) github = true) by (vm_compute; reflexivity).
  apply existsb_exists in H as (e & I & E). apply seq_eq in E. exists e. split; [exact I|]. split; [exact E|]. rewrite E. vm_compute. reflexivity.
Qed.
Print Assumptions C168_refuted.
Theorem C168_partial table u n v e : one_byte table -> ~ In ":"%char u -> ~ In ":"%char v -> word blanks n -> Known table n e -> key n = n ->
  autocorrect table (u ++ between n ++ v) = Out (u ++ between n ++ v).
Proof.
  intros O Nu Nv W K E. apply (autocorrect_tokens table _ (map Char u ++ Name n :: map Char v ++ [])); [exact O| |apply tokens_around; assumption|].
  - intros X. apply app_eq_nil in X as [_ X]. discriminate.
  - apply meaning_around. exists n. split; [|reflexivity]. destruct (table_pattern n) eqn:T; [apply corrected_ruler; assumption|].
    rewrite <- E at 2. apply (C_known table n e); [|rewrite E; exact K]. intros R. apply (table_ruler n (proj1 (proj2 (proj2 W)))) in R. congruence.
Qed.
Print Assumptions C168_partial.
Lemma github_known n : find_entry github n <> None -> exists e, Known github n e.
Proof. intros H. pose proof (find_known github n) as K. destruct (find_entry github n) as [e|]; [eauto|congruence]. Qed.
Example C168_case : exists e, Known github (B "tada") e /\ key (B "tada") = B "tada" /\ word blanks (B "tada").
Proof.
  destruct (github_known (B "tada")) as [e K]; [vm_compute; discriminate|]. exists e. split; [exact K|]. split; [reflexivity|].
  apply word_ok; [split; [discriminate|cbn; lia]|reflexivity].
Qed.

(** * C169: the distance of words *)
Theorem C169_distance a b : Distance (levenshtein a b) a b.
Proof. exact (levenshtein_distance a b). Qed.
Print Assumptions C169_distance.
Example C169_case : levenshtein (B "kitten") (B "sitting") = 3.
Proof. reflexivity. Qed.

(** * C170: the nearest name, and the longest *)
Theorem C170_nearest table n : ~ In ":"%char n -> match find_best table n with
  | Some m => (exists e, Known table (key n) e /\ m = ename e) \/ (Unknown table (key n) /\ Nearest 4 table (key n) m)
  | None => Unknown table (key n) /\ Far 4 table (key n)
  end.
Proof. exact (find_best_spec table n). Qed.
Print Assumptions C170_nearest.
Theorem C170_longest table u : u <> [] -> match find_emoji_name table u with
  | Some n => Longest table u n
  | None => forall e, In e table -> unicode e <> Some u
  end.
Proof. exact (find_name table u). Qed.
Print Assumptions C170_longest.
Definition thumb : str := map ascii_of_nat [240; 159; 145; 141].
Example C170_case : find_best github (B "Rockett") = Some (B "rocket") /\ find_emoji_name github thumb = Some (B "thumbsup").
Proof. vm_compute. auto. Qed.

(** * C171: memory of autocorrection *)
Theorem C171_refuted table : autocorrect table [] = Bad.
Proof. reflexivity. Qed.
Print Assumptions C171_refuted.
Theorem C171_partial table text : one_byte table -> text <> [] -> exists t, autocorrect table text = Out t.
Proof.
  intros O Z. destruct (C167_reading table text) as (l & t & T & M). exists t. exact (C167_partial table text l t O Z T M).
Qed.
Print Assumptions C171_partial.
Example C171_case : one_byte github /\ exists t, autocorrect github (B ":x") = Out t.
Proof. split; [exact github_one|]. apply C171_partial; [exact github_one|discriminate]. Qed.

(** * C172: memory of text for the terminal *)
Theorem C172_safe table text : exists t, replace_text table text = Out t.
Proof. exact (replace_text_safe table text). Qed.
Print Assumptions C172_safe.
Example C172_case : replace_text github (B "a :+1: b") = Out (B "a " ++ thumb ++ B " b").
Proof. vm_compute. reflexivity. Qed.

(** * C173: emoji in text for the terminal *)
Lemma shows_github n u : table_pattern n = false -> ~ In ":"%char n -> (exists m i, find_entry github (key n) = Some (Entry m (Some u) i)) -> Shows github n u.
Proof.
  intros T N (m & i & E). split; [intros R; apply (table_ruler n N) in R; congruence|]. pose proof (find_known github (key n)) as K. rewrite E in K. eauto.
Qed.
Definition red_a : str := map ascii_of_nat [240; 159; 133; 176; 239; 184; 143].
Theorem C173_refuted : let text := concat (repeat (B ":a:") 17) in
  Tokens (text_name github) text (repeat (Name (B "a")) 17) /\ Meaning (Shown github) (repeat (Name (B "a")) 17) (concat (repeat red_a 17)) /\
  replace_text github text <> Out (concat (repeat red_a 17)).
Proof.
  cbv zeta.
  assert (Sh : Shows github (B "a") red_a).
  { apply shows_github; [reflexivity|cbn; intuition discriminate|]. do 2 eexists. vm_compute. reflexivity. }
  assert (W : text_name github (B "a")).
  { split; [|right; eauto]. apply word_ok; [split; [discriminate|cbn; lia]|reflexivity]. }
  split; [|split].
  - generalize 17. induction n as [|k IH]; [constructor|]. cbn [repeat concat]. apply (T_name _ (B "a")); assumption.
  - generalize 17. induction n as [|k IH]; [constructor|]. cbn [repeat concat]. constructor; [constructor; exact Sh|exact IH].
  - vm_compute. discriminate.
Qed.
Print Assumptions C173_refuted.
Theorem C173_partial table text l t : Tokens (text_name table) text l -> Meaning (Shown table) l t -> length t < 2 * length text + 16 -> replace_text table text = Out t.
Proof. exact (replace_text_tokens table text l t). Qed.
Print Assumptions C173_partial.
(** With the names of the program the size matters only for names of one letter. *)
Theorem C173_names text l t : Tokens (text_name github) text l -> Meaning (Shown github) l t -> (forall n, In (Name n) l -> length n > 1) -> replace_text github text = Out t.
Proof.
  intros T M L. apply (replace_text_tokens github text l t T M). pose proof (meaning_fits github text l t github_half T M L). lia.
Qed.
Print Assumptions C173_names.
Example C173_case : let text := B "x " ++ between (B "+1") ++ B " y" in
  Tokens (text_name github) text (map Char (B "x ") ++ Name (B "+1") :: map Char (B " y") ++ []) /\
  Meaning (Shown github) (map Char (B "x ") ++ Name (B "+1") :: map Char (B " y") ++ []) (B "x " ++ thumb ++ B " y").
Proof.
  assert (Sh : Shows github (B "+1") thumb).
  { apply shows_github; [reflexivity|cbn; intuition discriminate|]. do 2 eexists. vm_compute. reflexivity. }
  cbv zeta. split; [apply tokens_around|apply meaning_around; constructor; exact Sh].
  - cbn. intuition discriminate.
  - cbn. intuition discriminate.
  - split; [|right; eauto]. apply word_ok; [split; [discriminate|cbn; lia]|reflexivity].
Qed.

(** * C174: HTML without colons *)
Theorem C174_no_colon table html : html <> [] -> ~ In ":"%char html -> replace table html = Out html.
Proof. exact (replace_no_colon table html). Qed.
Print Assumptions C174_no_colon.
Example C174_case : replace github (B "<p>smile</p>") = Out (B "<p>smile</p>").
Proof. vm_compute. reflexivity. Qed.

(** * C175: emoji in HTML *)
Definition smile : str := map ascii_of_nat [240; 159; 152; 132].
(** A colon before the name keeps it from being seen; the name of an emoji with a dash is never seen; code is changed. *)
Theorem C175_refuted : Shows github (B "smile") smile /\
  replace github (B "<p>12:30:smile:</p>") = Out (B "<p>12:30:smile:</p>") /\
  (exists e u, In e github /\ unicode e = Some u /\ ename e = B "-1" /\ replace github (between (ename e)) = Out (between (ename e))) /\
  replace github (B "<code>:smile:</code>") = Out (B "<code>" ++ smile ++ B "</code>").
Proof.
  split; [|split; [vm_compute; reflexivity|split; [|vm_compute; reflexivity]]].
  - apply shows_github; [reflexivity|cbn; intuition discriminate|]. do 2 eexists. vm_compute. reflexivity.
  - assert (H : existsb (fun e => seq_ (ename e) (B "-1") && match unicode e with Some _ => true | None => false end) github = true) by (vm_compute; reflexivity).
    apply existsb_exists in H as (e & I & E). apply andb_true_iff in E as [E U]. apply seq_eq in E. destruct (unicode e) as [u|] eqn:Eu; [|discriminate].
    exists e, u. split; [exact I|]. split; [exact Eu|]. split; [exact E|]. rewrite E. vm_compute. reflexivity.
Qed.
Print Assumptions C175_refuted.
Theorem C175_partial table html l t : small table -> html <> [] -> calm html -> Tokens (word blanks) html l -> Meaning (Shown table) l t -> replace table html = Out t.
Proof. exact (replace_tokens table html l t). Qed.
Print Assumptions C175_partial.
Lemma calm_around u n v : ~ In ":"%char u -> ~ In ":"%char v -> closed u -> n <> [] -> plain_text n -> ~ In ":"%char n -> calm (u ++ between n ++ v).
Proof.
  intros Nu Nv C Z P N a b E.
  assert (K : a = u \/ a = u ++ B ":" ++ n).
  { clear - Nu Nv N E. revert a E. induction u as [|c u IH]; intros a E.
    - destruct a as [|c a]; [left; reflexivity|right]. cbn in E. injection E as <- E. cbn [app]. enough (X : a = n) by (rewrite X; reflexivity).
      revert a E. induction n as [|d n IHn]; intros a E.
      + destruct a as [|c a]; [reflexivity|]. cbn in E. injection E as <- E. destruct Nv. rewrite E. apply in_or_app. right. left. reflexivity.
      + destruct a as [|c a]; cbn in E; injection E as -> E; [destruct N; left; reflexivity|]. f_equal. apply IHn; [|exact E]. intros I. apply N. right. exact I.
    - destruct a as [|d a]; cbn in E; injection E as -> E; [destruct Nu; left; reflexivity|]. destruct (IH (fun I => Nu (or_intror I)) a E) as [-> | ->]; [left; reflexivity|right; reflexivity]. }
  destruct K as [-> | ->]; [exact C|].
  assert (Q : plain_text (B ":" ++ n)) by (destruct P as [P1 P2]; split; (intros [X|X]; [discriminate|contradiction])).
  destruct C as [[C1 C2]|(x & y & -> & [C1 C2])].
  - left. destruct Q as [Q1 Q2]. split; intros I; apply in_app_or in I as [I|I]; contradiction.
  - right. exists x, (y ++ B ":" ++ n). split; [rewrite <- !app_assoc; reflexivity|]. destruct Q as [Q1 Q2]. split; intros I; apply in_app_or in I as [I|I]; contradiction.
Qed.
Example C175_case : small github /\ calm (B "<p>a " ++ between (B "smile") ++ B " b</p>") /\
  replace github (B "<p>a " ++ between (B "smile") ++ B " b</p>") = Out (B "<p>a " ++ smile ++ B " b</p>").
Proof.
  split; [exact github_small|]. split; [|vm_compute; reflexivity]. apply calm_around; try (cbn; intuition discriminate).
  - right. exists (B "<p"), (B "a "). split; [reflexivity|split; cbn; intuition discriminate].
  - split; cbn; intuition discriminate.
Qed.

(** * C176: attributes *)
Theorem C176_refuted : replace github (B "<p title='x = :smile:'></p>") = Out (B "<p title='x = " ++ smile ++ B "'></p>").
Proof. vm_compute. reflexivity. Qed.
Print Assumptions C176_refuted.
Theorem C176_partial table html : html <> [] -> (forall a b, html = a ++ B ":" ++ b -> quoted_place a) -> replace table html = Out html.
Proof. exact (replace_quoted table html). Qed.
Print Assumptions C176_partial.
Example C176_case : forall a b, B "<p title=':smile:'></p>" = a ++ B ":" ++ b -> quoted_place a.
Proof.
  intros a b E.
  assert (K : a = B "<p title='" \/ a = B "<p title=':smile").
  { do 10 (destruct a as [|c a]; [discriminate E || (left; reflexivity)|cbn in E; injection E as <- E]).
    destruct a as [|c a]; [left; reflexivity|cbn in E; injection E as <- E].
    do 5 (destruct a as [|c a]; [discriminate E|cbn in E; injection E as <- E]). 
    destruct a as [|c a]; [right; reflexivity|cbn in E; injection E as <- E].
    do 6 (destruct a as [|c a]; [discriminate E|cbn in E; injection E as <- E]). destruct a; discriminate E. }
  destruct K as [-> | ->].
  - exists [], (B "p title"), SQ, []. repeat split; cbn; auto. repeat constructor; cbn; intuition discriminate.
  - exists [], (B "p title"), SQ, (B ":smile"). split; [reflexivity|]. split; [auto|]. split; [cbn; intuition discriminate|].
    split; cbn; repeat (constructor; [cbn; intuition discriminate|]); constructor.
Qed.

(** * C177: memory of emoji in HTML *)
Theorem C177_refuted : replace github [] = Bad /\ replace github (B "<p><img :src=x></p>") = Bad /\
  replace github (B "<p>:octocat: " ++ repeat "x"%char 45 ++ B "</p>") = Bad.
Proof. vm_compute. auto. Qed.
Print Assumptions C177_refuted.
Theorem C177_partial table html : html <> [] -> small table -> no_img html -> no_image table html -> exists t, replace table html = Out t.
Proof. exact (replace_safe table html). Qed.
Print Assumptions C177_partial.

Example C177_case : let table := filter (fun e => match unicode e with Some _ => true | None => false end) github in
  small table /\ no_img (B "<p>:smile: x") /\ no_image table (B "<p>:smile: x") /\ 800 < length table.
Proof.
  cbv zeta. split; [|split; [|split]].
  - intros e u I U. apply filter_In in I as [I _]. exact (github_small e u I U).
  - intros a b i m g x E L. exfalso. destruct a as [|c a]; cbn in E.
    + injection E as <- _ _ _ _. discriminate L.
    + injection E as _ E. assert (N : ~ In "<"%char (B "p>:smile: x")) by (cbn; intuition discriminate). apply N.
      change (B "p>:smile: x") with (["p"; ">"; ":"; "s"; "m"; "i"; "l"; "e"; ":"; " "; "x"]%char). rewrite E. apply in_or_app. right. left. reflexivity.
  - intros a n b e _ (l1 & l2 & E & _) U. assert (I : In e (filter (fun e => match unicode e with Some _ => true | None => false end) github)) by (rewrite E; apply in_or_app; right; left; reflexivity).
    apply filter_In in I as [_ I]. rewrite U in I. discriminate.
  - apply Nat.ltb_lt. vm_compute. reflexivity.
Qed.

(** * C178: images *)
Theorem C178_refuted : (exists m url, Known github (B "octocat") (Entry m None (Some url))) /\
  replace github (B "<p>:octocat:</p>") = Out (B "<p>:octocat:</p>") /\
  (exists t, replace github (B "<h1>:octocat:" ++ repeat "x"%char 80 ++ B "</h1>") = Out t /\ strstr (B "1em") t = None /\ strstr (B "<img") t <> None).
Proof.
  split; [|split; [vm_compute; reflexivity|]].
  - destruct (find_entry github (B "octocat")) as [[m [u|] [url|]]|] eqn:E; vm_compute in E; try discriminate E.
    pose proof (find_known github (B "octocat")) as K. assert (E' : find_entry github (B "octocat") = Some (Entry m None (Some url))) by (rewrite <- E; vm_compute; reflexivity).
    rewrite E' in K. eauto.
  - eexists. split; [vm_compute; reflexivity|]. split; vm_compute; [reflexivity|discriminate].
Qed.
Print Assumptions C178_refuted.
Theorem C178_partial table u n v m url : ~ In ":"%char u -> ~ In ":"%char v -> closed u -> ~ level_mark u -> word blanks n -> ~ ruler n ->
  Known table (key n) (Entry m None (Some url)) ->
  let html := u ++ between n ++ v in let tag := image_tag false url m in
  replace table html = (if length u + length tag <? 3 * length html then
                         if length (u ++ tag ++ v) <? 3 * length html then Out (u ++ tag ++ v) else Bad
                       else Out html).
Proof. exact (replace_image table u n v m url). Qed.
Print Assumptions C178_partial.
Example C178_case : let v := repeat "x"%char 80 in exists t,
  replace github (B "<p>" ++ between (B "octocat") ++ v) = Out (B "<p>" ++ t ++ v) /\ starts (B "<img class=") t = true.
Proof.
  cbv zeta. exists (image_tag false (match find_entry github (B "octocat") with Some (Entry _ _ (Some x)) => x | _ => [] end) (B "octocat")).
  vm_compute. auto.
Qed.
