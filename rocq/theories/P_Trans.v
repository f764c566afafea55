(** Property theorems C47-C58: metadata transforms and references
    (src/extensions/metadata.c 1191-2160). *)
From Verif Require Import Base Dec M_Encode M_Meta M_Trans S_Trans L_Trans L_Vars L_TransNum.

(** A library whose split cuts at every comma; for the witnesses below. *)
Fixpoint at_commas (cur v : list ascii) : list (list ascii) :=
  match v with
  | [] => [cur]
  | c :: v' => if ceq c "," then cur :: at_commas [] v' else at_commas (cur ++ [c]) v'
  end.
Definition comma_lib : lib :=
  mklib (fun v _ => at_commas [] v) (fun v _ => v) (fun v _ => Val v) (fun v _ _ => Val v).

(** C47 would say: a chain does what its transforms do one after the other.  It
    is false: [first] yields the first element but leaves the array in place, and
    the next transform goes back to the whole array. *)
Theorem C47_chain_refuted :
  exists L c v v2, pipeline (alone L) c v v2 /\ apply_chain L c v <> Val v2.
Proof.
  exists comma_lib, [(B "split", Some (B ",")); (B "first", None); (B "upper", None)], (B "a,b"), (B "A").
  split; [|vm_compute; discriminate].
  eapply pl_cons; [vm_compute; reflexivity|]. eapply pl_cons; [vm_compute; reflexivity|].
  eapply pl_cons; [vm_compute; reflexivity|]. apply pl_nil.
Qed.
Print Assumptions C47_chain_refuted.

(** It holds for chains of transforms on strings ... *)
Theorem C47_string_chain_partial :
  forall L c v v2, Forall (fun l => ~ In (fst l) array_names) c ->
  pipeline (alone L) c v v2 -> apply_chain L c v = Val v2.
Proof. intros L c v v2. apply string_pipeline. Qed.
Print Assumptions C47_string_chain_partial.

(** ... and for such chains behind a split and a join, if the value has at least
    two parts. *)
Theorem C47_split_join_partial :
  forall L d e c v v2 x y l,
  l_split L v (match d with Some (a :: p) => a :: p | _ => B " " end) = x :: y :: l ->
  Forall (fun l => ~ In (fst l) array_names) c ->
  pipeline (alone L) c (join (match e with Some (a :: p) => a :: p | _ => B ", " end) (x :: y :: l)) v2 ->
  apply_chain L ((B "split", d) :: (B "join", e) :: c) v = Val v2.
Proof. intros L d e c v v2 x y l. exact (split_join_pipeline L d e c v v2 x y l). Qed.
Print Assumptions C47_split_join_partial.

(** ... and for such chains directly behind a split: they start from the parts
    with commas between them. *)
Theorem C47_split_strings_partial :
  forall L d c v v2 x y l, c <> [] ->
  l_split L v (match d with Some (a :: p) => a :: p | _ => B " " end) = x :: y :: l ->
  Forall (fun l => ~ In (fst l) array_names) c ->
  pipeline (alone L) c (join (B ", ") (x :: y :: l)) v2 ->
  apply_chain L ((B "split", d) :: c) v = Val v2.
Proof. intros L d c v v2 x y l. exact (split_string_pipeline L d c v v2 x y l). Qed.
Print Assumptions C47_split_strings_partial.

Example C47_split_strings_case :
  apply_chain comma_lib [(B "split", Some (B ",")); (B "upper", None); (B "suffix", Some (B "!"))] (B "a,b") = Val (B "A, B!").
Proof. vm_compute. reflexivity. Qed.

Example C47_case :
  apply_chain comma_lib [(B "trim", None); (B "upper", None); (B "suffix", Some (B "!"))] (B " hi ") = Val (B "HI!") /\
  apply_chain comma_lib [(B "split", Some (B ",")); (B "join", Some (B "-")); (B "upper", None)] (B "a,b") = Val (B "A-B").
Proof. split; vm_compute; reflexivity. Qed.

(** C48: [%key] references.  An unclosed opening disables the references behind
    it, so not every well-formed reference is replaced. *)
Theorem C48_every_reference_refuted :
  exists m text a b w, text = a ++ written_ref (B "title") ++ b /\ meta_get m (B "title") = Some (B "T") /\
    replace_variables (var_value comma_lib false m) m text = Some w /\ w_oob w = false /\ w_out w = text.
Proof.
  exists [(B "title", B "T")], (B "100[% [%title]"), (B "100[% "), [].
  eexists. repeat split; vm_compute; reflexivity.
Qed.
Print Assumptions C48_every_reference_refuted.

(** Exactly: the text is read from the left; an opening without a balanced body
    ends the expansion, a body of 512 bytes or more and an unknown key stay as
    they are, every other reference becomes the value of its key, and values are
    not read again.  [expands] is a function (C48_determined); [meta_get] is C12.
    The block never overflows and the expansion ends. *)
Theorem C48_references_partial :
  forall L m text, m <> [] ->
  exists w, replace_variables (var_value L false m) m text = Some w /\ w_oob w = false /\
    expands (meta_get m) text (w_out w).
Proof. exact plain_expansion. Qed.
Print Assumptions C48_references_partial.

(** The same with transforms, whenever these have defined behaviour (C53). *)
Theorem C48_transforms_partial :
  forall L m text, m <> [] -> (forall b, var_value L true m b <> Bad) ->
  exists w, replace_variables (var_value L true m) m text = Some w /\ w_oob w = false /\
    expands (fun b => match var_value L true m b with Val v => Some v | _ => None end) text (w_out w).
Proof. intros L m text N NB. exact (replace_variables_ok (var_value L true m) m text NB N). Qed.
Print Assumptions C48_transforms_partial.

Theorem C48_no_metadata :
  forall L text, exists w, replace_variables (var_value L false []) [] text = Some w /\
    w_oob w = false /\ w_out w = text.
Proof. intros L text. exact (replace_variables_none (var_value L false []) text). Qed.
Print Assumptions C48_no_metadata.

Theorem C48_determined :
  forall value t o1 o2, expands value t o1 -> expands value t o2 -> o1 = o2.
Proof. exact expands_fun. Qed.
Print Assumptions C48_determined.

Example C48_case :
  option_map w_out (replace_variables (var_value comma_lib true [(B "t", B "a[%t]b")]) [(B "t", B "a[%t]b")]
    (B "x[%t]y[%u]z[%t:upper]")) = Some (B "xa[%t]by[%u]zA[%T]B").
Proof. vm_compute. reflexivity. Qed.

(** C49: urlencode yields unreserved bytes and %XX only, and urldecode undoes it. *)
Theorem C49_url_round_trip :
  forall L v, nul_free v ->
  exists e, apply_chain L [(B "urlencode", None)] v = Val e /\ url_text e /\
    apply_chain L [(B "urlencode", None); (B "urldecode", None)] v = Val v.
Proof. exact run_urlencode. Qed.
Print Assumptions C49_url_round_trip.

Example C49_case :
  nul_free (B "a b&c") /\ apply_chain comma_lib [(B "urlencode", None)] (B "a b&c") = Val (B "a%20b%26c").
Proof. split; [intros I; repeat (destruct I as [I|I]; [discriminate|]); exact I|vm_compute; reflexivity]. Qed.

(** C50: a slug is not a fixed point of slug, and it may begin with a hyphen. *)
Theorem C50_slug_refuted :
  (exists L v r, apply_chain L [(B "slug", None)] v = Val r /\
     apply_chain L [(B "slug", None); (B "slug", None)] v <> Val r) /\
  (exists L v r, apply_chain L [(B "slug", None)] v = Val ("-"%char :: r)).
Proof.
  split; [exists comma_lib, (B "a b"), (B "a-b")|exists comma_lib, (B "! a"), (B "a")];
    [split; [vm_compute; reflexivity|vm_compute; discriminate]|vm_compute; reflexivity].
Qed.
Print Assumptions C50_slug_refuted.

(** It has only lower-case letters, digits and single hyphens, and does not end
    in a hyphen. *)
Theorem C50_slug_partial :
  forall L v, exists r, apply_chain L [(B "slug", None)] v = Val r /\ clean_slug r.
Proof. exact run_slug. Qed.
Print Assumptions C50_slug_partial.

Example C50_case : apply_chain comma_lib [(B "slug", None)] (B "Hello,  World_ ") = Val (B "hello-world").
Proof. vm_compute. reflexivity. Qed.

(** C51: replace and remove substitute exactly the leftmost, non-overlapping
    occurrences. *)
Theorem C51_replace :
  forall L old new v, old <> [] -> ~ In ","%char old ->
  (forall r, old ++ ","%char :: new <> B "regex:" ++ r) -> nul_free v -> nul_free new ->
  exists r, apply_chain L [(B "replace", Some (old ++ ","%char :: new))] v = Val r /\ subst_all old new v r.
Proof. exact run_replace. Qed.
Print Assumptions C51_replace.

Theorem C51_remove :
  forall L o v, o <> [] -> nul_free v ->
  exists r, apply_chain L [(B "remove", Some o)] v = Val r /\ subst_all o [] v r.
Proof. exact run_remove. Qed.
Print Assumptions C51_remove.

Theorem C51_determined :
  forall old new v o1 o2, old <> [] -> subst_all old new v o1 -> subst_all old new v o2 -> o1 = o2.
Proof. exact subst_all_fun. Qed.
Print Assumptions C51_determined.

Example C51_case :
  apply_chain comma_lib [(B "replace", Some (B "aa,xyz"))] (B "aaab") = Val (B "xyzab") /\
  apply_chain comma_lib [(B "remove", Some (B "aa"))] (B "aaab") = Val (B "ab").
Proof. split; vm_compute; reflexivity. Qed.

(** C52: escape.  The bytes of a character outside ASCII become references to
    other characters: é shows as two. *)
Theorem C52_escape_utf8_refuted :
  exists L e, apply_chain L [(B "escape", None)] [ascii_of_N 195; ascii_of_N 169] = Val e /\
    ~ shows e [233%N] /\ shows e [195%N; 169%N].
Proof.
  destruct (run_escape comma_lib [ascii_of_N 195; ascii_of_N 169]) as (e & E1 & E2 & _).
  { intros [I|[I|[]]]; discriminate. }
  exists comma_lib, e. split; [exact E1|]. split; [|exact E2].
  intros H. pose proof (shows_fun e _ E2 _ H) as X. discriminate.
Qed.
Print Assumptions C52_escape_utf8_refuted.

(** The escaped text shows one character per byte, the one with the code of the
    byte - for an ASCII value, exactly the value - and holds no byte that could
    open or close a tag or an attribute. *)
Theorem C52_escape_partial :
  forall L v, nul_free v ->
  exists e, apply_chain L [(B "escape", None)] v = Val e /\ shows e (map code v) /\
    forall c, In c e -> ~ In c (B "<>""'").
Proof. exact run_escape. Qed.
Print Assumptions C52_escape_partial.

Theorem C52_determined : forall e l, shows e l -> forall l', shows e l' -> l = l'.
Proof. exact shows_fun. Qed.
Print Assumptions C52_determined.

Example C52_case : apply_chain comma_lib [(B "escape", None)] (B "a<b&'c'") = Val (B "a&lt;b&amp;&#39;c&#39;").
Proof. vm_compute. reflexivity. Qed.

(** C53: transforms have no undefined behaviour.  False: a negative or huge number
    in the options overflows a size. *)
Theorem C53_no_undefined_behaviour_refuted :
  forall L,
  apply_chain L [(B "truncate", Some (B "-1"))] (B "abc") = Bad /\
  apply_chain L [(B "repeat", Some (B "4611686018427387904"))] (B "abcd") = Bad /\
  apply_chain L [(B "pad", Some (B "9223372036854775807"))] (B "a") = Bad /\
  apply_chain L [(B "slice", Some (B "1,9223372036854775807"))] (B "abc") = Bad.
Proof. intros L. repeat split; vm_compute; reflexivity. Qed.
Print Assumptions C53_no_undefined_behaviour_refuted.

(** With options that hold no minus sign and at most nine digits and values below
    8 GB, every transform in every state of the array has defined behaviour,
    except the two that hand the text to the C library ([format], which uses the
    options as a printf format, and regular expressions). *)
Theorem C53_no_undefined_behaviour_partial :
  forall L name o v st,
  name <> B "format" -> ~ (name = B "replace" /\ exists r, o = Some (B "regex:" ++ r)) ->
  match o with Some o => ~ In "-"%char o /\ length (filter isdigit o) <= 9 | None => True end ->
  (Z.of_nat (length (fst (settle st v))) < 2 ^ 33)%Z ->
  (match t_arr st with Some a => Z.of_nat (length a) < 2 ^ 33 | None => True end)%Z ->
  (Z.of_nat (length v) < 2 ^ 33)%Z ->
  fst (apply_transform L name o v st) <> Bad.
Proof.
  intros L name o v st H1 H2 H3. apply transform_safe; [|exact H3].
  intros [X|X]; [exact (H1 X)|exact (H2 X)].
Qed.
Print Assumptions C53_no_undefined_behaviour_partial.

Example C53_case :
  apply_chain comma_lib [(B "truncate", Some (B "5,..."))] (B "abcdefgh") = Val (B "ab...") /\
  length (filter isdigit (B "5,...")) <= 9.
Proof. split; [vm_compute; reflexivity|cbn; lia]. Qed.

(** C54: truncate keeps the length.  False if the suffix is as long as the limit. *)
Theorem C54_truncate_refuted :
  forall L, apply_chain L [(B "truncate", Some (B "2,..."))] (B "hello") = Val (B "he...").
Proof. intros L. vm_compute. reflexivity. Qed.
Print Assumptions C54_truncate_refuted.

Theorem C54_truncate_partial :
  forall L n s v, (Z.of_nat n < long_max)%Z -> Forall (fun c => isspace c = false) s -> length s <= 63 ->
  (length s < n \/ s = []) ->
  exists r, apply_chain L [(B "truncate", Some (dec n ++ ","%char :: s))] v = Val r /\
    length r <= n /\ (length v <= n -> r = v) /\
    (n < length v -> length r = n /\ exists p q, v = p ++ q /\ r = p ++ s).
Proof. exact run_truncate. Qed.
Print Assumptions C54_truncate_partial.

Example C54_case : apply_chain comma_lib [(B "truncate", Some (B "7,..."))] (B "hello world") = Val (B "hell...").
Proof. vm_compute. reflexivity. Qed.

(** C55: substring(a,b) is bytes a to b; but without an end the last byte is lost. *)
Theorem C55_substring_refuted :
  forall L a v, (Z.of_nat a <= long_max)%Z -> a < length v ->
  apply_chain L [(B "substring", Some (dec a))] v = Val (firstn (length v - 1 - a) (skipn a v)).
Proof. exact run_substring_open. Qed.
Print Assumptions C55_substring_refuted.

Theorem C55_substring_partial :
  forall L a b v, (Z.of_nat a <= long_max)%Z -> (Z.of_nat b <= long_max)%Z ->
  apply_chain L [(B "substring", Some (dec a ++ ","%char :: dec b))] v = Val (firstn (b - a) (skipn a v)).
Proof. exact run_substring. Qed.
Print Assumptions C55_substring_partial.

Example C55_case :
  apply_chain comma_lib [(B "substring", Some (B "1,3"))] (B "hello") = Val (B "el") /\
  apply_chain comma_lib [(B "substring", Some (B "1"))] (B "hello") = Val (B "ell").
Proof. split; vm_compute; reflexivity. Qed.

(** C56: pad fills up on the left, exactly to the width. *)
Theorem C56_pad :
  forall L n c v, (Z.of_nat n < long_max)%Z ->
  apply_chain L [(B "pad", Some (dec n ++ [","%char; c]))] v = Val (repeat c (n - length v) ++ v).
Proof. exact run_pad. Qed.
Print Assumptions C56_pad.

Example C56_case : apply_chain comma_lib [(B "pad", Some (B "4,0"))] (B "7") = Val (B "0007").
Proof. vm_compute. reflexivity. Qed.

(** C57: trim removes exactly the surrounding white space, basename exactly the
    part up to the last slash. *)
Theorem C57_trim :
  forall L v, exists a r b, apply_chain L [(B "trim", None)] v = Val r /\ v = a ++ r ++ b /\
    Forall (fun c => isspace c = true) (a ++ b) /\
    (forall c x, r = c :: x -> isspace c = false) /\ (forall x c, r = x ++ [c] -> isspace c = false).
Proof. exact run_trim. Qed.
Print Assumptions C57_trim.

Theorem C57_basename :
  forall L v, exists p r, apply_chain L [(B "basename", None)] v = Val r /\ v = p ++ r /\ ~ In "/"%char r /\
    (p = [] \/ exists q, p = q ++ ["/"%char]).
Proof. exact run_basename. Qed.
Print Assumptions C57_basename.

Example C57_case :
  apply_chain comma_lib [(B "trim", None); (B "basename", None)] (B " /a/b.md  ") = Val (B "b.md").
Proof. vm_compute. reflexivity. Qed.
