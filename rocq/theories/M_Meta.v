(** Model of the metadata lists of src/extensions/metadata.c and of their merge
    in cli/main.c.  A list is the sequence of its (key, value) items, head
    first; the NULL list is [[]].  Allocation never fails. *)
From Verif Require Import Base.

Notation item := (list ascii * list ascii)%type (only parsing).
Notation meta := (list (list ascii * list ascii)) (only parsing).

(** Case-insensitive comparison, strcasecmp == 0 in the "C" locale. *)
Definition casecmp (a b : str) : bool := seq_ (map tolower a) (map tolower b).

(** Drop trailing white space. *)
Fixpoint rtrim (s : str) : str :=
  match s with
  | [] => []
  | c :: s' => match rtrim s' with
               | [] => if isspace c then [] else [c]
               | r => c :: r
               end
  end.

(** metadata.c 66-80, trim_whitespace, seen from callers that keep using the
    pointer they passed (2218 and 2250): the leading white space stays in place,
    an all-white string is left as it is. *)
Definition trim_in_place (s : str) : str :=
  let (lead, rest) := span isspace s in
  match rest with
  | [] => s
  | _ => lead ++ rtrim rest
  end.

(** metadata.c 85-104, add_metadata_item (key and value never NULL here). *)
Definition add_item (l : meta) (k v : str) : meta := (k, v) :: l.

(** metadata.c 757-772, normalize_metadata_key. *)
Fixpoint normalize (key : str) : str :=
  match key with
  | [] => []
  | c :: r => if isspace c then normalize r else tolower c :: normalize r
  end.

(** metadata.c 790-804 and 807-822: the two scans of apex_metadata_get. *)
Fixpoint get_with (same : str -> bool) (m : meta) : option str :=
  match m with
  | [] => None
  | (k, v) :: m' =>
      match k with
      | [] => get_with same m'
      | _ => if same k then Some v else get_with same m'
      end
  end.

(** metadata.c 778-825, apex_metadata_get. *)
Definition meta_get (m : meta) (key : str) : option str :=
  match m, key with
  | [], _ | _, [] => None
  | _, _ =>
      match get_with (fun k => casecmp k key) m with
      | Some v => Some v
      | None => get_with (fun k => seq_ (normalize k) (normalize key)) m
      end
  end.

(** [strchr] splitting: the text before the first [c] and what follows it. *)
Definition cut (c : ascii) (s : str) : option (str * str) :=
  match strchr c s with
  | Some i => Some (firstn i s, skipn (S i) s)
  | None => None
  end.

(** metadata.c 2201-2254, parse_key_value_pair. *)
Definition parse_pair (input : str) : option (str * str) :=
  match cut "=" input with
  | None => None
  | Some (k, v) =>
      let key := trim_in_place k in
      if ceq (at_ v 0) DQ || ceq (at_ v 0) SQ then
        match cut (at_ v 0) (skipn 1 v) with
        | None => Some (key, skipn 1 v)
        | Some (q, _) => Some (key, q)
        end
      else
        match cut "," v with
        | None => Some (key, trim_in_place v)
        | Some (u, _) => Some (key, trim_in_place u)
        end
  end.

(** metadata.c 2304-2318: does the comma that precedes [s] start a new pair? *)
Definition starts_pair (s : str) : bool :=
  let after := snd (span isspace s) in
  if isalnum (at_ after 0) || ceq (at_ after 0) "_" then
    match strchr "=" after with
    | None => false
    | Some e => match strchr "," after with
                | None => true
                | Some c => e <? c
                end
    end
  else false.

(** metadata.c 2276-2322: length of the pair that starts at [p], whose first
    equals sign is at offset [e]. *)
Definition pair_length (p : str) (e : nat) : nat :=
  let v := skipn (S e) p in
  if ceq (at_ v 0) DQ || ceq (at_ v 0) SQ then
    match strchr (at_ v 0) (skipn 1 v) with
    | Some q => S e + 1 + q + 1
    | None => length p
    end
  else
    match strchr "," v with
    | Some c => if starts_pair (skipn (S c) v) then S e + c else length p
    | None => length p
    end.

(** metadata.c 2266-2343, the loop of apex_parse_command_metadata; [None] when
    the fuel runs out. *)
Fixpoint command_loop (fuel : nat) (p : str) (items : meta) : option meta :=
  match fuel with
  | 0 => None
  | S fuel =>
      match snd (span isspace p) with
      | [] => Some items
      | p1 =>
          match strchr "=" p1 with
          | None => Some items
          | Some e =>
              let n := pair_length p1 e in
              let items' := match parse_pair (firstn n p1) with
                            | Some (k, v) => add_item items k v
                            | None => items
                            end in
              if ceq (at_ p1 n) "," then command_loop fuel (skipn (S n) p1) items'
              else Some items'
          end
      end
  end.

(** metadata.c 2260-2346, apex_parse_command_metadata. *)
Definition parse_command (arg : str) : option meta :=
  command_loop (S (length arg)) arg [].

(** metadata.c 2374-2394: remove the first item whose key is equal up to case. *)
Fixpoint remove_key (k : str) (m : meta) : meta :=
  match m with
  | [] => []
  | (k', v) :: m' => if casecmp k' k then m' else (k', v) :: remove_key k m'
  end.

(** metadata.c 2370-2398: one later list is merged into the result. *)
Fixpoint merge_list (result src : meta) : meta :=
  match src with
  | [] => result
  | (k, v) :: src' => merge_list (add_item (remove_key k result) k v) src'
  end.

(** metadata.c 2363-2400: the variable arguments, up to the first NULL. *)
Fixpoint merge_rest (result : meta) (args : list meta) : meta :=
  match args with
  | [] => result
  | [] :: _ => result
  | l :: args' => merge_rest (merge_list result l) args'
  end.

(** metadata.c 2352-2403, apex_merge_metadata. *)
Definition merge (first : meta) (args : list meta) : meta :=
  merge_rest (rev first) args.

(** cli/main.c 3074-3081 and 3116-3126: the sources of one conversion. *)
Definition cli_merge (global project explicit doc cmdline : meta) : meta :=
  let file := merge global [project; explicit] in
  merge file [doc; cmdline].

(** cli/main.c 2059-2070: one more --meta option. *)
Definition cli_meta (cmdline new : meta) : meta :=
  match new with
  | [] => cmdline
  | _ => match cmdline with
         | [] => new
         | _ => merge cmdline [new]
         end
  end.

(** metadata.c 2408-2439, is_true_value and is_false_value. *)
Definition is_true_value (v : str) : bool :=
  let l := map tolower v in seq_ l (B "true") || seq_ l (B "yes") || seq_ l (B "1").
Definition is_false_value (v : str) : bool :=
  let l := map tolower v in seq_ l (B "false") || seq_ l (B "no") || seq_ l (B "0").

(** metadata.c 858-955, parse_transform_chain.  A chain is the list of its
    (name, options) pairs; [None] for the key is the malformed case. *)
Definition chain := list (str * option str).

Fixpoint chain_loop (fuel : nat) (p : str) : option (option chain) :=
  match fuel with
  | 0 => None
  | S fuel =>
      match p with
      | [] => Some (Some [])
      | _ =>
          let (name, p1) := span (fun c => negb (ceq c ":" || ceq c "(")) p in
          let finish (o : option str) (p2 : str) :=
            if ceq (at_ p2 0) ":" then
              match chain_loop fuel (skipn 1 p2) with
              | Some (Some r) => Some (Some ((name, o) :: r))
              | other => other
              end
            else Some (Some [(name, o)]) in
          if ceq (at_ p1 0) "(" then
            match cut ")" (skipn 1 p1) with
            | None => Some None
            | Some (o, p2) => finish (Some o) p2
            end
          else finish None p1
      end
  end.

Definition parse_chain (input : str) : option (option (str * chain)) :=
  match cut ":" input with
  | None => Some (Some (input, []))
  | Some (key, p) =>
      match chain_loop (S (length p)) p with
      | None => None
      | Some None => Some None
      | Some (Some c) => Some (Some (key, c))
      end
  end.
