(** Model of running an external command: plugins_env.c 84-172 and
    filters_ast.c 32-122 (the same protocol), as a transition system of the
    parent, the child and the two pipes.

    The child is arbitrary: a state type and the next action in each state.
    A pipe holds at most [K] bytes; writing blocks while it is full, reading
    while it is empty and the other end is open (pipe(7)).  SIGPIPE keeps its
    default action (no file of /repo changes it), so that writing to a pipe
    whose reader has exited kills the parent.  Not modelled: failures of pipe,
    fork, malloc and read; signals other than SIGPIPE; the child handing its
    descriptors to others or closing them before it exits. *)
From Verif Require Import Base.

(** What a child does next: read (it gets a non-empty chunk, or [[]] at the end
    of the input), write one byte (a longer write is several of these), or exit. *)
Inductive action (C : Type) :=
| Read (k : str -> C) | Write (b : ascii) (c : C) | Exit (status : nat).
Arguments Read {C}. Arguments Write {C}. Arguments Exit {C}.

(** The parent's program counter: the loop at 118-123 (the rest of the JSON), the
    loop at 139-163 (the buffer so far and its capacity; [over] tells whether a
    read was allowed to go beyond the capacity), finished, killed. *)
Inductive parent :=
| PWrite (rest : str)
| PRead (buf : str) (cap : nat) (over : bool)
| PDone (buf : str) (over : bool) (status : nat)
| PKilled.

Record st (C : Type) := mkst {
  s_par : parent;
  s_in : str;               (* bytes in the pipe to the child *)
  s_out : str;              (* bytes in the pipe from the child *)
  s_child : C + nat;        (* running, or exited with a status *)
  s_got : str;              (* history: what the child has read *)
  s_sent : str              (* history: what the child has written *)
}.
Arguments mkst {C}. Arguments s_par {C}. Arguments s_in {C}. Arguments s_out {C}.
Arguments s_child {C}. Arguments s_got {C}. Arguments s_sent {C}.

(** 140-151 *)
Definition grow (size cap : nat) : nat := if cap <? size + 4096 then cap * 2 else cap.

Inductive step {C : Type} (next : C -> action C) (K : nat) : st C -> st C -> Prop :=
(* 118-123: [write] stores between 1 byte and what fits *)
| s_write now rest i o c g w :
    now <> [] -> length i + length now <= K ->
    step next K (mkst (PWrite (now ++ rest)) i o (inl c) g w)
                (mkst (PWrite rest) (i ++ now) o (inl c) g w)
(* the child has exited: SIGPIPE *)
| s_sigpipe rest i o status g w : rest <> [] ->
    step next K (mkst (PWrite rest) i o (inr status) g w)
                (mkst PKilled i o (inr status) g w)
(* 124: close; 128-130 *)
| s_close i o c g w :
    step next K (mkst (PWrite []) i o c g w) (mkst (PRead [] (2 * 4096) false) i o c g w)
(* 140-162: [read] of up to 4096 bytes at [buf + size] *)
| s_read buf cap over now i o c g w :
    now <> [] -> length now <= 4096 ->
    step next K (mkst (PRead buf cap over) i (now ++ o) c g w)
                (mkst (PRead (buf ++ now) (grow (length buf) cap)
                        (over || (grow (length buf) cap <? length buf + 4096))) i o c g w)
(* 161, 164-171: end of file, reap the child, terminate the string *)
| s_eof buf cap over i status g w :
    step next K (mkst (PRead buf cap over) i [] (inr status) g w)
                (mkst (PDone buf (over || (grow (length buf) cap <=? length buf)) status)
                      i [] (inr status) g w)
(* the child *)
| s_cread par now i o c k g w : next c = Read k -> now <> [] ->
    step next K (mkst par (now ++ i) o (inl c) g w) (mkst par i o (inl (k now)) (g ++ now) w)
| s_ceof par o c k g w : next c = Read k -> (forall rest, par <> PWrite rest) ->
    step next K (mkst par [] o (inl c) g w) (mkst par [] o (inl (k [])) g w)
| s_cwrite par i o c b c' g w : next c = Write b c' -> length o < K -> par <> PKilled ->
    step next K (mkst par i o (inl c) g w) (mkst par i (o ++ [b]) (inl c') g (w ++ [b]))
| s_cexit par i o c status g w : next c = Exit status ->
    step next K (mkst par i o (inl c) g w) (mkst par i o (inr status) g w).

Inductive steps {C : Type} (next : C -> action C) (K : nat) : st C -> st C -> Prop :=
| steps_refl s : steps next K s s
| steps_more s1 s2 s3 : step next K s1 s2 -> steps next K s2 s3 -> steps next K s1 s3.

Definition start {C : Type} (c : C) (json : str) : st C :=
  mkst (PWrite json) [] [] (inl c) [] [].

(** The result: plugins_env.c returns what it collected whatever the exit
    status; filters_ast.c 110-118 returns NULL unless the status is 0. *)
Definition plugin_result (buf : str) (status : nat) : option str := Some buf.
Definition filter_result (buf : str) (status : nat) : option str :=
  if Nat.eqb status 0 then Some buf else None.

(** ** filters_ast.c 124-193 [apex_run_ast_filters]

    [run cmd doc] is what becomes of [doc] by writing it as JSON, running [cmd]
    and reading the output ([None]: any of the three failed).  Documents are
    lists of blocks. *)
Definition usable (cmd : option str) : bool :=
  match cmd with Some (_ :: _) => true | _ => false end.
Fixpoint run_filters {D : Type} (empty : D -> bool) (run : str -> D -> option D) (strict : bool)
  (cmds : list (option str)) (cur : D) : option D :=
  match cmds with
  | [] => Some cur
  | cmd :: cmds' =>
      match cmd with
      | Some (c :: cs) =>
          match run (c :: cs) cur with
          | None => if strict then None else run_filters empty run strict cmds' cur
          | Some new =>
              if empty new && negb (empty cur)
              then run_filters empty run strict cmds' cur
              else run_filters empty run strict cmds' new
          end
      | _ => run_filters empty run strict cmds' cur                 (* 139-141 *)
      end
  end.
