(** Model of src/extensions/emoji.c.  Allocation never fails; malloc(0) gives a buffer without a byte.  A
    store outside a buffer or a read behind the end of the text is [Bad]. *)
From Verif Require Import Base.

(** emoji_data.h 10-14 *)
Record entry := Entry { ename : str; unicode : option str; image : option str }.
Inductive answer := Out (s : str) | Bad.
Definition colon : ascii := ":".

Section Table.
Variable table : list entry.
(** emoji.c 22-30 *)
Definition find_entry (n : str) : option entry := find (fun e => seq_ (ename e) n) table.
(** emoji.c 539-556 *)
Definition normalize (n : str) : str :=
  map (fun c => if ceq c "-"%char then "_"%char else tolower c) (filter (fun c => negb (ceq c colon)) n).
(** emoji.c 193-217 *)
Fixpoint longest_name (u : str) (l : list entry) (best : option str) : option str :=
  match l with
  | [] => best
  | e :: l =>
      longest_name u l
        (match unicode e with
         | Some v => if seq_ v u then
                       match best with
                       | Some b => if length b <? length (ename e) then Some (ename e) else best
                       | None => Some (ename e)
                       end
                     else best
         | None => best
         end)
  end.
Definition find_emoji_name (u : str) : option str := match u with [] => None | _ => longest_name u table None end.

(** emoji.c 561-604, a row at a time *)
Definition min3 (d i s : nat) : nat := if d <? i then (if d <? s then d else s) else if i <? s then i else s.
Fixpoint row (c : ascii) (s2 : str) (prev : list nat) (left : nat) : list nat :=
  match s2, prev with
  | d :: s2, p0 :: ((p1 :: _) as prev) =>
      let x := min3 (p1 + 1) (left + 1) (p0 + if ceq c d then 0 else 1) in x :: row c s2 prev x
  | _, _ => []
  end.
Fixpoint rows (s1 s2 : str) (i : nat) (prev : list nat) : list nat :=
  match s1 with
  | [] => prev
  | c :: s1 => rows s1 s2 (S i) (S i :: row c s2 prev (S i))
  end.
Definition levenshtein (s1 s2 : str) : nat :=
  match s1, s2 with
  | [], _ => length s2
  | _, [] => length s1
  | _, _ => nth (length s2) (rows s1 s2 0 (seq 0 (S (length s2)))) 0
  end.
(** emoji.c 610-650.  The names have fewer than 49 bytes, so that normalized[64] holds them. *)
Fixpoint closest (max : nat) (n : str) (l : list entry) (best : option (nat * str)) : option (nat * str) :=
  match l with
  | [] => best
  | e :: l =>
      let d := levenshtein n (ename e) in
      closest max n l
        (if d <=? max then
           match best with
           | Some (d0, b) => if (d <? d0) || ((d =? d0) && (length (ename e) <? length b)) then Some (d, ename e) else best
           | None => Some (d, ename e)
           end
         else best)
  end.
Definition find_best (name : str) : option str :=
  let n := normalize name in
  match find_entry n with
  | Some e => Some (ename e)
  | None => match closest 4 n table None with Some (_, b) => Some b | None => None end
  end.

(** emoji.c 333-347, 478-492, 697-708: the name behind a colon, and what follows the second colon *)
Definition pattern (r : str) : option (str * str) :=
  match strchr colon r with
  | Some k => if (0 <? k) && (S k <? 50) then Some (firstn k r, skipn (S k) r) else None
  | None => None
  end.
Definition has_any (l : str) (n : str) : bool := existsb (fun c => existsb (ceq c) l) n.
(** emoji.c 657-672 *)
Definition table_pattern (n : str) : bool := forallb (fun c => ceq c "|"%char || ceq c "-"%char || ceq c colon) n.
Definition colons (n : str) : str := colon :: n ++ [colon].

(** emoji.c 678-808 *)
Fixpoint correct (fuel : nat) (s : str) (w : wr) : option wr :=
  match fuel with
  | O => None
  | S fuel =>
      match s with
      | [] => Some w
      | c :: r =>
          let plain := correct fuel r (w_put c w) in
          if ceq c colon then
            match pattern r with
            | None => plain
            | Some (n, rest) =>
                if has_any [SP; TAB; NL] n then plain
                else if table_pattern n then correct fuel rest (w_puts_lt (colons n) w)
                else
                  let found := match find_entry (normalize n) with Some _ => Some (normalize n) | None => find_best n end in
                  correct fuel rest
                    (match found with
                     | Some m => if length m + 2 <=? w_rem w then w_puts_le (colons m) w else w_puts_lt (colons n) w
                     | None => w_puts_lt (colons n) w
                     end)
            end
          else plain
      end
  end.
Definition finish (w : option wr) : answer :=
  match w with Some w => let w := w_term w in if w_oob w then Bad else Out (w_out w) | None => Bad end.
Definition autocorrect (text : str) : answer :=
  let cap := length text * 2 in finish (correct (S (length text)) text (w_new cap cap)).

(** emoji.c 457-534 *)
Fixpoint in_text (fuel : nat) (s : str) (w : wr) : option wr :=
  match fuel with
  | O => None
  | S fuel =>
      match s with
      | [] => Some w
      | c :: r =>
          let plain := in_text fuel r (w_put c w) in
          if ceq c colon then
            match pattern r with
            | None => plain
            | Some (n, rest) =>
                if has_any [SP; TAB; NL; CR] n then plain
                else if table_pattern n then in_text fuel rest (w_puts_le (colons n) w)
                else
                  match find_entry (normalize n) with
                  | Some (Entry _ (Some u) _) => if length u <=? w_rem w then in_text fuel rest (w_puts_le u w) else plain
                  | _ => plain
                  end
            end
          else plain
      end
  end.
(** 527-531: without room for the NUL the last byte becomes one *)
Definition replace_text (text : str) : answer :=
  let cap := length text * 2 + 16 in
  match in_text (S (length text)) text (w_new cap cap) with
  | None => Bad
  | Some w => if w_oob w then Bad else if 0 <? w_rem w then finish (Some w) else Out (firstn (cap - 1) (w_out w))
  end.

(** * Emoji in HTML *)
(** What precedes the current byte is kept backwards. *)
(** emoji.c 75-117: the text between the nearest tag start and the current byte.  The later tests for
    the end of a tag (111-117, 167-170) cannot succeed on this text and are left out. *)
Fixpoint tag_back (before acc : str) : option str :=
  match before with
  | [] => None
  | c :: b =>
      let entity x := ceq c "t"%char && (3 <=? length b) && ceq (at_ acc 0) ";"%char && ceq (at_ b 0) x && ceq (at_ b 1) "&"%char in
      if ceq c ">"%char then None
      else if ceq c "<"%char then Some acc
      else if entity "l"%char then Some ("l"%char :: c :: acc)
      else if entity "g"%char then None
      else tag_back b (c :: acc)
  end.
Fixpoint after_last (c : ascii) (s : str) : option str :=
  match s with
  | [] => None
  | d :: r => match after_last c r with Some t => Some t | None => if ceq d c then Some r else None end
  end.
(** emoji.c 119-185; the current byte is a colon *)
Definition inside_attribute (before : str) : bool :=
  match tag_back before [] with
  | None => false
  | Some t =>
      match after_last "="%char t with
      | None => false
      | Some v =>
          let v := snd (span isspace v) in
          match v with
          | [] => false
          | q :: x => if ceq q DQ || ceq q SQ then negb (existsb (ceq q) x) else negb (existsb isspace v)
          end
      end
  end.
(** emoji.c 36-66 *)
Definition is_h (c : ascii) : bool := ceq c "h"%char || ceq c "H"%char.
Definition is_level (c : ascii) : bool := existsb (ceq c) (B "123456").
Fixpoint in_header (before : str) : bool :=
  match before with
  | [] => false
  | c :: b =>
      if ceq c ">"%char && (3 <? length b) then
        if ceq (at_ b 0) "/"%char && ceq (at_ b 1) "<"%char then
          if (5 <=? length b) && is_h (at_ b 2) && is_level (at_ b 3) then false else in_header b
        else if is_h (at_ b 0) && is_level (at_ b 1) && ceq (at_ b 2) "<"%char then true
        else in_header b
      else in_header b
  end.
(** emoji.c 270-331: how far back an img tag starts, at most 49 bytes.  The test for an encoded tag
    (311-326) compares the semicolon of &lt; with i and always fails. *)
Definition img_name (t : str) : bool :=
  let is a b c := ceq c a || ceq c b in
  is "i"%char "I"%char (at_ t 0) && is "m"%char "M"%char (at_ t 1) && is "g"%char "G"%char (at_ t 2) &&
  (isspace (at_ t 3) || ceq (at_ t 3) ">"%char).
Fixpoint img_back (n : nat) (before acc : str) : option nat :=
  match n, before with
  | S n, c :: b =>
      if ceq c ">"%char then None
      else if ceq c "<"%char then if (4 <=? length acc) && img_name acc then Some (S (length acc)) else None
      else if ceq c "t"%char && (3 <=? length b) && ceq (at_ acc 0) ";"%char && ceq (at_ b 0) "l"%char && ceq (at_ b 1) "&"%char then None
      else img_back n b (c :: acc)
  | _, _ => None
  end.
Definition puts (s : str) (w : wr) : wr := fold_left (fun w c => w_put c w) s w.
(** emoji.c 395-404 *)
Definition image_tag (header : bool) (url n : str) : str :=
  B "<img class=" ++ [DQ] ++ B "emoji" ++ [DQ] ++ B " src=" ++ [DQ] ++ url ++ [DQ] ++ B " alt=" ++ [DQ] ++ B ":" ++ n ++ B ":" ++ [DQ] ++
  if header then B " style=" ++ [DQ] ++ B "height: 1em; width: auto; vertical-align: middle;" ++ [DQ] ++ B ">"
  else B " height=" ++ [DQ] ++ B "20" ++ [DQ] ++ B " width=" ++ [DQ] ++ B "20" ++ [DQ] ++ B " align=" ++ [DQ] ++ B "absmiddle" ++ [DQ] ++ B ">".
(** emoji.c 223-449.  The [continue] in the search for an img tag (284-297) repeats the search, so that
    bytes are copied up to the fiftieth behind the tag start, whether they exist or not; the search for
    a closing colon follows. *)
Fixpoint in_html (fuel : nat) (before s : str) (w : wr) : option wr :=
  match fuel with
  | O => None
  | S fuel =>
      match s with
      | [] => Some w
      | c :: r =>
          let plain c b r w := in_html fuel (c :: b) r (w_put c w) in
          let named c b r w :=
            match pattern r with
            | None => plain c b r w
            | Some (n, rest) =>
                let b' := rev (n ++ [colon]) ++ c :: b in
                let original := c :: n ++ [colon] in
                if has_any [SP; TAB; NL] n then plain c b r w
                else if table_pattern n then in_html fuel b' rest (w_puts_lt original w)
                else
                  match find_entry (normalize n) with
                  | Some (Entry _ (Some u) _) => in_html fuel b' rest (if length u <? w_rem w then w_puts_lt u w else w_puts_lt original w)
                  | Some (Entry m None (Some url)) =>
                      let t := image_tag (in_header b) url m in
                      in_html fuel b' rest (if length t <? w_rem w then w_puts_lt t w else w_puts_lt original w)
                  | Some (Entry _ None None) => plain c b r w
                  | None => in_html fuel b' rest (w_puts_lt original w)
                  end
            end in
          let text :=
            if ceq c colon then
              if inside_attribute before then plain c before r w
              else
                match img_back 49 before [] with
                | None => named c before r w
                | Some d =>
                    let k := 50 - d in
                    match skipn k s with
                    | [] => None
                    | c' :: r' => named c' (rev (firstn k s) ++ before) r' (puts (firstn k s) w)
                    end
                end
            else plain c before r w in
          if ceq c colon && starts (rev (B "<!--IDX")) before then
            match strstr (B "-->") s with
            | Some k => if k + 3 <=? w_rem w then in_html fuel (rev (firstn (k + 3) s) ++ before) (skipn (k + 3) s) (w_puts_le (firstn (k + 3) s) w) else text
            | None => text
            end
          else text
      end
  end.
(** 225: three times the length; 448: the NUL is stored without a test *)
Definition replace (html : str) : answer :=
  let cap := length html * 3 in finish (in_html (S (length html)) [] html (w_new cap cap)).
End Table.
