(** Property theorems C14, C58, C59 (src/plugins.c). *)
From Verif Require Import Base M_Plug S_Plug L_Plug.

(** C14: whatever is found, each phase runs in order of priority and then of id,
    and has exactly the first usable plugin of every id. *)
Theorem C14_plugin_order :
  forall fs, let (pre, post) := lists (load fs) in
  in_order pre /\ in_order post /\
  (forall p, In p pre <-> first_usable (B "pre_parse") fs p) /\
  (forall p, In p post <-> first_usable (B "post_render") fs p).
Proof. exact load_ok. Qed.
Print Assumptions C14_plugin_order.

(** With one plugin per id and phase, the order of discovery does not matter. *)
Theorem C14_discovery_order :
  forall fs fs',
  (forall name f g, In f fs -> In g fs -> usable name f -> usable name g ->
     p_id (f_plugin f) = p_id (f_plugin g) -> f_plugin f = f_plugin g) ->
  (forall f, In f fs <-> In f fs') -> lists (load fs) = lists (load fs').
Proof. exact load_order_irrelevant. Qed.
Print Assumptions C14_discovery_order.

Example C14_case :
  let mk := fun (ph id : list ascii) prio => mkf (Some ph) (mkp id prio Nothing) true in
  let fs := [mk (B "pre_parse") (B "b") 10%Z; mk (B "pre_parse") (B "c") 5%Z; mk (B "pre_parse") (B "a") 10%Z;
             mk (B "pre_parse") (B "b") 1%Z; mk (B "post_render") (B "z") 0%Z; mk (B "inline") (B "y") 0%Z] in
  (map p_id (fst (lists (load fs))), map p_id (snd (lists (load fs))))
  = ([B "c"; B "a"; B "b"], [B "z"]).
Proof. vm_compute. reflexivity. Qed.

(** C58: a declarative pattern replaces every match.  It is false for anchors:
    every search starts anew at the rest of the text, so ^ matches again behind
    each match, and $ matches twice at the end. *)
Definition one_group (a b : nat) : groups := fun i => match i with 0 => Some (a, b) | _ => None end.
Definition rx_caret_a (before s : list ascii) : option groups :=
  match before, s with [], "a"%char :: _ => Some (one_group 0 1) | _, _ => None end.
Definition rx_dollar (before s : list ascii) : option groups := Some (one_group (length s) (length s)).

Theorem C58_anchors_refuted :
  (sed rx_caret_a (B "b") [] false (B "aaa") (B "baa") /\
   exists w, regex_replace (rx_caret_a []) (B "b") (B "aaa") = Some (Some w) /\ w_out w = B "bbb") /\
  (sed rx_dollar (B "!") [] false (B "abc") (B "abc!") /\
   exists w, regex_replace (rx_dollar []) (B "!") (B "abc") = Some (Some w) /\ w_out w = B "abc!!").
Proof.
  split; split.
  - apply (sed_match rx_caret_a (B "b") [] false (B "aaa") (one_group 0 1) 0 1 (B "b") (B "aa"));
      [reflexivity|reflexivity|lia| |apply sed_none; reflexivity].
    apply xp_byte; [discriminate|constructor].
  - eexists. split; vm_compute; reflexivity.
  - apply (sed_empty_end rx_dollar (B "!") [] false (B "abc") (one_group 3 3) (B "!"));
      [reflexivity|reflexivity|discriminate|]. apply xp_byte; [discriminate|constructor].
  - eexists. split; vm_compute; reflexivity.
Qed.
Print Assumptions C58_anchors_refuted.

(** For a pattern that does not look at the text in front of the match and does
    not match nothing, exactly the leftmost non-overlapping matches are replaced
    by the filled-in template; without a match the text is left alone. *)
Theorem C58_regex_partial :
  forall exec tpl input, sound_match exec ->
  (forall s g, exec s = Some g -> exists a b, g 0 = Some (a, b) /\ a < b) ->
  exists o, sed (fun _ => exec) tpl [] false input o /\
    match exec input with
    | None => regex_replace exec tpl input = Some None /\ o = input
    | Some _ => exists w, regex_replace exec tpl input = Some (Some w) /\ w_oob w = false /\ w_out w = o
    end.
Proof. exact regex_replace_sed. Qed.
Print Assumptions C58_regex_partial.

Theorem C58_determined :
  forall rx tpl b adj s o,
  (forall b s, rx b s = None \/ exists g x y, rx b s = Some g /\ g 0 = Some (x, y) /\ x < y <= length s) ->
  sed rx tpl b adj s o -> forall o', sed rx tpl b adj s o' -> o = o'.
Proof. exact sed_fun. Qed.
Print Assumptions C58_determined.

(** For every matcher the replacement ends and stays inside its block. *)
Theorem C58_regex_safe :
  forall exec tpl input, sound_match exec ->
  exists r, regex_replace exec tpl input = Some r /\ match r with Some w => w_oob w = false | None => True end.
Proof. exact regex_replace_safe. Qed.
Print Assumptions C58_regex_safe.

Example C58_case :
  let exec := fun s => match strstr (B "x") s with Some i => Some (one_group i (i + 1)) | None => None end in
  option_map (option_map w_out) (regex_replace exec (B "<$0$1$>") (B "axbx")) = Some (Some (B "a<x$>b<x$>")).
Proof. vm_compute. reflexivity. Qed.

(** C59: a phase applies its plugins one after the other, each to the output of
    the one before, a failing one being skipped; a command sees its own
    directories and the input file; afterwards every environment variable has its
    old value; and NULL is returned exactly when the text did not change. *)
Theorem C59_phase :
  forall X file m ph e text l name,
  (ph = PreParse /\ l = m_pre m /\ name = B "pre_parse") \/
  (ph = PostRender /\ l = m_post m /\ name = B "post_render") ->
  Forall (fun p => match p_act p with Regex exec _ => sound_match exec | _ => True end) l ->
  exists r e' t', run_phase X file m ph e text = Some (r, e') /\ (forall k, e' k = e k) /\
    effects X name file e l text t' /\ (r = None <-> t' = text) /\ (forall t, r = Some t -> t = t').
Proof. exact run_phase_ok. Qed.
Print Assumptions C59_phase.

Example C59_case :
  let X : external := fun e cmd name id text =>
    match e PLUGIN_DIR with Some d => if seq_ cmd (B "fail") then None else Some (text ++ d) | None => None end in
  let m := mkm [mkp (B "p") 1 (Command (B "ok") (B "/d1") None); mkp (B "q") 2 (Command (B "fail") (B "/d2") None);
                mkp (B "r") 3 (Command (B "ok") (B "/d3") (Some (B "/s")))] [] in
  option_map fst (run_phase X (B "in.md") m PreParse (fun _ => None) (B "t")) = Some (Some (B "t/d1/d3")).
Proof. vm_compute. reflexivity. Qed.
