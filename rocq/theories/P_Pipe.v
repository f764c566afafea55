(** Property theorems about running plugins and filters. *)
From Verif Require Import Base M_Json S_Json M_Pipe S_Pipe L_Pipe L_JsonRead.

(** C42: running a command need not complete.  Whatever the capacity of a pipe,
    [cat] as a plugin can block for ever on a long enough document, and a
    command that exits without reading can kill the program. *)
Theorem C42_run_completes_refuted : forall K json, 1 <= K -> 2 * K + 2 <= length json ->
  (exists s, steps cat_next K (start (CatWrite []) json) s /\ stuck cat_next K s) /\
  (exists s, steps true_next K (start tt json) s /\ killed s).
Proof.
  intros K json H1 H2. refine (conj (cat_deadlock K json H1 H2) (early_exit K json _)).
  intros ->. cbn in H2. inversion H2. destruct K; discriminate.
Qed.

(** Every run is finite, never blocks and never kills the program, and the child
    gets the whole input, if the child reads its input to the end before it
    writes.  (Missing: other children, for which it can fail as above.) *)
Theorem C42_run_completes_partial :
  forall (C : Type) (next : C -> action C) (reading : C -> Prop) (K : nat) (json : str) (c : C),
  reads_first next reading -> 1 <= K -> reading c ->
  Acc (fun s' s => step next K s s') (start c json) /\
  forall s, steps next K (start c json) s ->
    ~ killed s /\ ~ stuck next K s /\ (finished s -> s_got s = json).
Proof. exact (fun C next reading K json c RF K1 R => live next reading K json RF K1 c R). Qed.
Example C42_case : reads_first (slurp_next (@rev ascii)) (fun c => exists s, c = Slurping s).
Proof. exact (slurp_reads_first (@rev ascii)). Qed.

(** C43: in every completed run of any command, what is collected is exactly
    what the command wrote, inside the buffer; and in every state what the
    command has read is the beginning of the input. *)
Theorem C43_run_output :
  forall (C : Type) (next : C -> action C) (K : nat) (json : str) (c : C) (s : st C),
  steps next K (start c json) s ->
  (exists rest, json = s_got s ++ rest) /\
  (forall buf over status, s_par s = PDone buf over status ->
     buf = s_sent s /\ over = false /\ s_child s = inr status).
Proof.
  intros C next K json c s H. pose proof (inv_steps next K json _ _ H (inv_start json c)) as I.
  unfold inv in I. split.
  - destruct (s_par s).
    + exact (ex_intro _ _ (proj1 I)).
    + exact (ex_intro _ _ (proj1 I)).
    + exact (ex_intro _ _ (proj1 I)).
    + exact (proj1 I).
  - intros buf over status E. rewrite E in I. destruct I as (_ & I1 & I2 & _ & I3).
    exact (conj (eq_sym I1) (conj I2 I3)).
Qed.
Example C43_case : exists s, steps cat_next 4 (start (CatWrite []) (B "ab")) s /\
  s_par s = PDone (B "ab") false 0.
Proof.
  eexists. split.
  - eapply steps_more; [apply (s_write _ _ (B "ab") []); [discriminate|vm_compute; repeat constructor]|].
    eapply steps_more; [apply s_close|].
    eapply steps_more; [apply (s_cread _ _ _ (B "ab") []
      _ _ (fun chunk => match chunk with [] => CatEnd | _ => CatWrite chunk end)); [reflexivity|discriminate]|].
    eapply steps_more; [eapply s_cwrite; [reflexivity|vm_compute; repeat constructor|discriminate]|].
    eapply steps_more; [eapply s_cwrite; [reflexivity|vm_compute; repeat constructor|discriminate]|].
    eapply steps_more; [eapply s_ceof; [reflexivity|discriminate]|].
    eapply steps_more; [eapply s_cexit; reflexivity|].
    eapply steps_more; [apply (s_read _ _ [] _ _ (B "ab") _ []); [discriminate|apply Nat.leb_le; vm_compute; reflexivity]|].
    eapply steps_more; [apply s_eof|]. apply steps_refl.
  - vm_compute. reflexivity.
Qed.

(** C44: in strict mode the chain fails just when one of the filters fails on
    the document it is given. *)
Theorem C44_strict_filters : forall (D : Type) (empty : D -> bool) (run : str -> D -> option D) cmds doc,
  (run_filters empty run true cmds doc = None <->
   exists a cmd b mid, cmds = a ++ Some cmd :: b /\ cmd <> [] /\
     run_filters empty run true a doc = Some mid /\ run cmd mid = None).
Proof.
  intros D empty run cmds doc. split; [exact (chain_none empty run cmds doc)|].
  intros (a & cmd & b & mid & -> & N & E1 & E2).
  destruct (run_filters empty run true (a ++ Some cmd :: b) doc) as [d|] eqn:E; [|reflexivity].
  destruct (chain_strict empty run _ _ _ E a cmd b eq_refl N) as (m & new & E3 & E4 & _). congruence.
Qed.

(** With [--no-strict-filters] it never fails, and a filter that fails has no
    effect at all. *)
Theorem C44_lenient_filters : forall (D : Type) (empty : D -> bool) (run : str -> D -> option D),
  (forall cmds doc, exists d, run_filters empty run false cmds doc = Some d) /\
  (forall a cmd b doc mid, run_filters empty run false a doc = Some mid ->
     (forall c, cmd = Some c -> c <> [] -> run c mid = None) ->
     run_filters empty run false (a ++ cmd :: b) doc = run_filters empty run false (a ++ b) doc).
Proof. exact (fun D empty run => conj (chain_some empty run) (fun a cmd b doc mid => chain_skip empty run a cmd b doc mid)). Qed.

(** Filters apply in the order given, each to the result of those before; a
    non-empty document never becomes empty. *)
Theorem C44_filters_compose : forall (D : Type) (empty : D -> bool) (run : str -> D -> option D) strict a b doc,
  run_filters empty run strict (a ++ b) doc =
    match run_filters empty run strict a doc with
    | Some d => run_filters empty run strict b d
    | None => None
    end /\
  (forall cmd new, cmd <> [] -> run cmd doc = Some new -> empty new = false ->
     run_filters empty run strict [Some cmd] doc = Some new) /\
  (forall d, run_filters empty run strict a doc = Some d -> empty doc = false -> empty d = false).
Proof.
  intros D empty run strict a b doc. refine (conj (chain_app empty run strict a b doc) (conj _
    (fun d => chain_empty empty run strict a doc d))).
  intros cmd new N E1 E2. destruct cmd; [congruence|]. cbn [run_filters]. rewrite E1, E2. reflexivity.
Qed.
(** On real documents: a filter that fails, then one that appends a rule. *)
Example C44_case :
  let run cmd doc := if Base.seq_ cmd (B "bad") then None else of_json (to_json (doc ++ [BRule])) in
  let empty doc := match doc with [] => true | _ => false end in
  run_filters empty (fun c d => match run c d with Some (Some x) => Some x | _ => None end) false
    [Some (B "bad"); None; Some (B "rule")] [BPara [IText (B "x")]] = Some [BPara [IText (B "x")]; BRule] /\
  run_filters empty (fun c d => match run c d with Some (Some x) => Some x | _ => None end) true
    [Some (B "bad"); None; Some (B "rule")] [BPara [IText (B "x")]] = None.
Proof. vm_compute. split; reflexivity. Qed.

Print Assumptions C42_run_completes_refuted.
Print Assumptions C42_run_completes_partial.
Print Assumptions C43_run_output.
Print Assumptions C44_strict_filters.
Print Assumptions C44_lenient_filters.
Print Assumptions C44_filters_compose.
