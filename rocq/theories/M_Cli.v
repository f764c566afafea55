(** Model of file handling in cli/main.c: standard input, heading shift, merge
    index, SUMMARY files, combine mode.  Allocation never fails; files are given
    as their contents. *)
From Verif Require Import Base.

(** ** 964-1004, read_stdin *)

(** The pipe holds [data]; [avail] says how many bytes each read finds (at least
    one until the end of the data; an exhausted schedule finds everything).  A
    read asks for [cap - size] bytes. *)
Definition BUFFER_SIZE : nat := 2 * 2048.
Fixpoint stdin_loop (fuel : nat) (avail : list nat) (data : str) (cap : nat) (w : str) (oob : bool)
  : option (nat * str * bool) :=
  match fuel with
  | 0 => None
  | S fuel =>
      let found := match avail with [] => length data | a :: _ => S a end in
      let n := Nat.min (Nat.min found (cap - length w)) (length data) in
      match n with
      | 0 => Some (cap, w, oob)
      | _ =>
          let w1 := w ++ firstn n data in
          let oob1 := oob || (cap <? length w1) in
          let cap1 := if cap <? length w1 + BUFFER_SIZE then cap * 2 else cap in
          stdin_loop fuel (tl avail) (skipn n data) cap1 w1 oob1
      end
  end.
(** The block, its length, and whether a byte was stored outside it. *)
Definition read_stdin (avail : list nat) (data : str) : option (str * bool) :=
  match stdin_loop (S (length data)) avail data BUFFER_SIZE [] false with
  | None => None
  | Some (cap, w, oob) => Some (w, oob || (cap <=? length w))
  end.

(** ** 1046-1088, apex_cli_shift_headers *)

(** 1063-1082 for level 0: from the content into the block. *)
Fixpoint first_level (bol : bool) (s : str) (w : wr) : wr :=
  match s with
  | [] => w_term w
  | c :: s' =>
      if bol && ceq c "#" then first_level false s' (w_store (B "##") w)
      else first_level (ceq c NL) s' (w_store [c] w)
  end.

(** The block as memory. *)
Definition mem := nat -> ascii.
Definition upd (k : nat) (c : ascii) (m : mem) : mem := fun j => if j =? k then c else m j.

(** 1063-1082 for the later levels: [in] and [out] both point into the block of
    [cap] bytes.  [None]: out of fuel; [Some None]: an access outside the block. *)
Fixpoint in_place (fuel cap : nat) (m : mem) (i o : nat) (bol : bool) : option (option mem) :=
  match fuel with
  | 0 => None
  | S fuel =>
      if cap <=? i then Some None
      else if ceq (m i) NUL then
        if cap <=? o then Some None else Some (Some (upd o NUL m))
      else if bol && ceq (m i) "#" then
        if cap <=? o + 1 then Some None
        else in_place fuel cap (upd (o + 1) "#" (upd o "#" m)) (i + 1) (o + 2) false
      else
        if cap <=? o then Some None
        else in_place fuel cap (upd o (m i) m) (i + 1) (o + 1) (ceq (m i) NL)
  end.

Fixpoint later_levels (n cap : nat) (m : mem) : option (option mem) :=
  match n with
  | 0 => Some (Some m)
  | S n =>
      match in_place (S cap) cap m 0 0 true with
      | Some (Some m') => later_levels n cap m'
      | other => other
      end
  end.

Fixpoint mem_str (fuel : nat) (m : mem) (i : nat) : str :=
  match fuel with
  | 0 => []
  | S fuel => if ceq (m i) NUL then [] else m i :: mem_str fuel m (i + 1)
  end.

(** The result; [Overrun] is an access outside the block.  [junk] is what the
    fresh block contains. *)
Inductive shifted := Done (s : str) | Overrun.
Definition shift_headers (junk : mem) (content : str) (indent : nat) : option shifted :=
  match indent with
  | 0 => Some (Done content)
  | S n =>
      let cap := length content * (indent + 1) + 1 in
      let w := first_level true content (w_new cap 0) in
      if w_oob w then Some Overrun
      else
        let m : mem := fun j => if j <? length (w_out w) then nth j (w_out w) NUL
                                else if j =? length (w_out w) then NUL else junk j in
        match later_levels n cap m with
        | None => None
        | Some None => Some Overrun
        | Some (Some m') => Some (Done (mem_str cap m' 0))
        end
  end.

(** ** 1096-1213, apex_cli_mmd_merge_index *)
Definition blank (c : ascii) : bool := ceq c SP || ceq c TAB.
Fixpoint drop_last (f : ascii -> bool) (s : str) : str :=
  match s with
  | [] => []
  | c :: s' => match drop_last f s' with
               | [] => if f c then [] else [c]
               | r => c :: r
               end
  end.

(** 1145-1163: tabs and groups of four spaces; what follows them. *)
Fixpoint count_indent (fuel : nat) (s : str) : nat * str :=
  match fuel with
  | 0 => (0, s)
  | S fuel =>
      if ceq (at_ s 0) TAB then
        let (n, r) := count_indent fuel (skipn 1 s) in (S n, r)
      else if ceq (at_ s 0) SP then
        if starts [SP; SP; SP; SP] s then
          let (n, r) := count_indent fuel (skipn 4 s) in (S n, r)
        else (0, snd (span (fun c => ceq c SP) s))
      else (0, s)
  end.

(** 1119-1175: one line; the indentation and the name, if it has a name. *)
Definition index_line (l : str) : option (nat * str) :=
  let line := drop_last (fun c => blank c || ceq c CR) l in
  let p := snd (span blank line) in
  if ceq (at_ p 0) NUL || ceq (at_ p 0) "#" then None
  else
    let (n, q) := count_indent (length line) line in
    match drop_last blank (snd (span blank q)) with
    | [] => None
    | name => Some (n, name)
    end.

(** 1109-1115 and 1208: the lines. *)
Fixpoint lines_from (cur : str) (s : str) : list str :=
  match s with
  | [] => match cur with [] => [] | _ => [cur] end
  | c :: s' => if ceq c NL then cur :: lines_from [] s' else lines_from (cur ++ [c]) s'
  end.
Definition lines_of (s : str) : list str := lines_from [] s.

Fixpoint index_entries (ls : list str) : list (nat * str) :=
  match ls with
  | [] => []
  | l :: ls' => match index_line l with
                | Some e => e :: index_entries ls'
                | None => index_entries ls'
                end
  end.

(** 1177-1200: the path of an entry (4095 bytes at most) and the output.  [files]
    gives the contents of readable files. *)
Definition entry_path (base name : str) : str :=
  firstn (2 * 2048 - 1) (if ceq (at_ name 0) "/" then name else base ++ B "/" ++ name).
Fixpoint merge_entries (junk : mem) (files : str -> option str) (base : str) (es : list (nat * str)) : option shifted :=
  match es with
  | [] => Some (Done [])
  | (k, name) :: es' =>
      match files (entry_path base name) with
      | None => merge_entries junk files base es'
      | Some content =>
          match shift_headers junk content k with
          | Some (Done t) =>
              match merge_entries junk files base es' with
              | Some (Done r) => Some (Done (t ++ [NL; NL] ++ r))
              | other => other
              end
          | other => other
          end
      end
  end.
Definition merge_index (junk : mem) (files : str -> option str) (base index : str) : option shifted :=
  merge_entries junk files base (index_entries (lines_of index)).

(** ** 1284-1372, apex_cli_combine_from_summary *)

(** 1300-1349: the path of the link on a line, if there is one to follow. *)
Definition link_path (line : str) : option str :=
  match strchr "[" line with
  | None => None
  | Some i =>
      let s := skipn i line in
      match strchr "]" s with
      | None => None
      | Some j =>
          if ceq (at_ s (j + 1)) "(" then
            let t := skipn (j + 2) s in
            match strchr ")" t with
            | None | Some 0 => None
            | Some n =>
                match drop_last (fun c => blank c || ceq c CR) (snd (span blank (firstn n t))) with
                | [] => None
                | p =>
                    let p1 := match strchr "#" p with Some h => firstn h p | None => p end in
                    match strstr (B "://") p1 with
                    | Some _ => None
                    | None => Some p1
                    end
                end
            end
          else None
      end
  end.

(** 1262-1275, apex_cli_write_combined_chunk, over a list of chunks. *)
Fixpoint write_chunks (needs : bool) (cs : list str) : str * bool :=
  match cs with
  | [] => ([], needs)
  | c :: cs' =>
      let (r, n) := write_chunks true cs' in
      ((if needs then [NL; NL] else []) ++ c ++ r, n)
  end.

(** [get] gives the processed text of a path, if it can be read. *)
Fixpoint chunks_of (get : str -> option str) (ps : list str) : list str :=
  match ps with
  | [] => []
  | p :: ps' => match get p with Some c => c :: chunks_of get ps' | None => chunks_of get ps' end
  end.
Fixpoint link_paths (ls : list str) : list str :=
  match ls with
  | [] => []
  | l :: ls' => match link_path l with Some p => p :: link_paths ls' | None => link_paths ls' end
  end.
Definition summary (get : str -> option str) (base text : str) : str :=
  fst (write_chunks false (chunks_of get (map (fun p => base ++ B "/" ++ p) (link_paths (lines_of text))))).

(** ** 2936-2985, combine mode: a list of files, some of them SUMMARY files given
    as the chunks they contribute. *)
Inductive combined := File (chunk : option str) | Summary (chunks : list str).
Fixpoint combine (needs : bool) (fs : list combined) : str :=
  match fs with
  | [] => []
  | File None :: fs' => combine needs fs'
  | File (Some c) :: fs' => (if needs then [NL; NL] else []) ++ c ++ combine true fs'
  | Summary cs :: fs' => fst (write_chunks false cs) ++ combine true fs'
  end.
