(** Model of src/extensions/header_ids.c 17-391, apex_generate_header_id.
    Allocation never fails.  The emoji table (src/extensions/emoji_data.h, searched
    by apex_find_emoji_name, src/extensions/emoji.c 197-220) is the parameter
    [names]: the name of a byte sequence.  Moving a pointer one before a block
    (359) is not counted as an access. *)
From Verif Require Import Base.

Inductive id_format := Gfm | Mmd | Kramdown.

(** 67, 132-134 *)
Definition continuation (c : ascii) : bool := between 128 191 c.
Definition seq_len (c : ascii) : nat :=
  if between 192 223 c then 2 else if between 224 239 c then 3 else if between 240 247 c then 4 else 0.
Definition E2 : ascii := "226"%char.
(** 70-108 *)
Definition general (c : ascii) (s : str) : bool := ceq (at_ s 0) E2 && ceq (at_ s 1) "128" && ceq (at_ s 2) c.
Definition em_en (s : str) : bool := general "148" s || general "147" s.
Definition apostrophe (s : str) : bool := general "153" s || general "152" s.

(** 220-227: [k - 1] continuation bytes follow. *)
Definition complete (k : nat) (s : str) : bool :=
  Nat.leb k (length s) && forallb continuation (firstn (k - 1) (skipn 1 s)).

(** 260-296: the letter of a two-byte sequence starting with C3. *)
Definition accent (b : ascii) : option ascii :=
  if ceq b "137" then Some "e"%char
  else if between 128 133 b then Some "a"%char
  else if ceq b "135" || ceq b "167" then Some "c"%char
  else if between 136 139 b then Some "e"%char
  else if between 140 143 b then Some "i"%char
  else if ceq b "145" || ceq b "177" then Some "n"%char
  else if between 146 152 b then Some "o"%char
  else if between 153 156 b then Some "u"%char
  else if ceq b "157" || ceq b "189" || ceq b "255" then Some "y"%char
  else if ceq b "159" then Some "s"%char
  else None.

(** 236-251: the check in front of an emoji name is the only one. *)
Definition put_name (n : str) (w : wr) : wr :=
  let needed := length (w_out w) + length n + 1 in
  w_store n (if Nat.ltb (w_cap w) needed then Wr (needed * 2) (w_out w) (w_rem w) (w_oob w) else w).

(** [last_was_dash], [first_char], [last_was_punct_dash] *)
Record ids := Ids { i_dash : bool; i_first : bool; i_punct : bool; i_w : wr }.
Definition put (x : str) (st : ids) : ids := Ids false false (i_punct st) (w_store x (i_w st)).
Definition set_punct (b : bool) (st : ids) : ids := Ids (i_dash st) (i_first st) b (i_w st).

(** 335-344 *)
Definition put_dash (st : ids) : ids :=
  if negb (i_dash st) && negb (i_first st) then Ids true (i_first st) (i_punct st) (w_store ["-"%char] (i_w st)) else st.

(** One round of the loop at [s = c :: s']: the number of further bytes to skip
    (the additions to [read]) and the new state. *)
Definition mmd_step (c : ascii) (s : str) (st : ids) : nat * ids :=
  if ceq c "-" then (0, put ["-"%char] st)
  else if isalnum c then (0, put [tolower c] st)
  else if N.ltb (code c) 128 then (0, st)
  else match seq_len c with
       | 0 => (0, st)
       | k => (k - 1, put (firstn k s) st)
       end.
Definition gap4 (c : ascii) : bool := ceq c SP || ceq c TAB || ceq c NL || ceq c CR.
Definition kramdown_step (c : ascii) (s : str) (st : ids) : nat * ids :=
  let trailing := match snd (span gap4 (skipn 1 s)) with [] => true | _ => false end in
  if ceq c "-" then (0, set_punct false (put ["-"%char] st))
  else if isalnum c then (0, set_punct false (put [tolower c] st))
  else if ceq c SP then
    if i_punct st then (0, set_punct false st) else (0, set_punct false (put ["-"%char] st))
  else if N.ltb (code c) 128 then
    if trailing then (0, set_punct false st) else (0, set_punct true (put ["-"%char] st))
  else (seq_len c - 1, st).
Definition gfm_step (names : str -> option str) (c : ascii) (s : str) (st : ids) : nat * ids :=
  let k := seq_len c in
  if Nat.ltb 0 k && complete k s then
    match names (firstn k s) with
    | Some n => (k - 1, Ids false false (i_punct st) (put_name n (i_w st)))
    | None =>
        match (if ceq c "195" then accent (at_ s 1) else None) with
        | Some a => (k - 1, put [a] st)
        | None => (k - 1, st)
        end
    end
  else if isalnum c then (0, put [tolower c] st)
  else if ceq c SP || ceq c "-" then (0, put_dash st)
  else (0, st).

Definition id_step (names : str -> option str) (f : id_format) (c : ascii) (s : str) (st : ids) : nat * ids :=
  if continuation c then (0, st)
  else if em_en s then
    (2, match f with Mmd => put (firstn 3 s) st | _ => st end)
  else if apostrophe s then (2, st)
  else match f with
       | Mmd => mmd_step c s st
       | Kramdown => kramdown_step c s st
       | Gfm => gfm_step names c s st
       end.

(** 63-351; [skip] bytes are still to be passed over.  [None]: the read pointer
    is moved behind the terminator. *)
Fixpoint ids_loop (names : str -> option str) (f : id_format) (s : str) (skip : nat) (st : ids) : option ids :=
  match s with
  | [] => match skip with 0 => Some st | _ => None end
  | c :: s' =>
      match skip with
      | S k => ids_loop names f s' k st
      | 0 => let (k, st') := id_step names f c s st in ids_loop names f s' k st'
      end
  end.

(** 355-381 *)
Definition dash (c : ascii) : bool := ceq c "-".
Fixpoint drop_last (f : ascii -> bool) (s : str) : str :=
  match s with
  | [] => []
  | c :: s' => match drop_last f s' with
               | [] => if f c then [] else [c]
               | r => c :: r
               end
  end.
Definition trim_id (f : id_format) (s : str) : str :=
  match f with
  | Gfm => drop_last dash (snd (span dash s))
  | Kramdown => snd (span dash s)
  | Mmd => s
  end.

(** The id and whether a byte was stored outside the block. *)
Definition header_id (names : str -> option str) (f : id_format) (text : str) : option (str * bool) :=
  match ids_loop names f text 0 (Ids false true false (w_new (length text * 3 + 1) 0)) with
  | None => None
  | Some st =>
      let w := w_term (i_w st) in
      Some (match trim_id f (w_out w) with [] => B "header" | id => id end, w_oob w)
  end.
