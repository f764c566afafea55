(** Model of the metadata transforms and of the expansion of [%key] references
    (src/extensions/metadata.c 1191-2160).

    A transform yields a fresh C string, NULL, or undefined behaviour.  [long] is
    64 bits wide, [size_t] arithmetic is modulo 2^64, [malloc] fails exactly for
    requests of 2^63 bytes or more.  Library functions whose result depends on
    regular expressions, dates or floating point ([split_string] 1052-1187,
    [strftime] 1436-1456, the regex branch of [replace] 1530-1589, [format]
    1895-1909) are the fields of a record [lib]; theorems hold for all of them. *)
From Verif Require Import Base Dec M_Encode M_Meta.
Open Scope nat_scope.

Inductive res := Val (s : str) | Null | Bad.

Record lib := mklib {
  l_split : str -> str -> list str;          (* value, pattern *)
  l_strftime : str -> str -> str;            (* value, format *)
  l_format : str -> str -> res;              (* value, printf format *)
  l_regex_replace : str -> str -> str -> res (* value, pattern, replacement *)
}.

(** The C string held by a buffer: it ends at the first NUL. *)
Definition cstr (s : str) : str := fst (span (fun c => negb (ceq c NUL)) s).

Definition long_max : Z := 9223372036854775807%Z.
Definition clamp (z : Z) : Z := Z.max (- long_max - 1) (Z.min long_max z).
Definition two64 : Z := 18446744073709551616%Z.

(** sscanf conversion %ld: white space, optional sign, digits. *)
Definition scan_ld (s : str) : option (Z * str) :=
  let s1 := snd (span isspace s) in
  let (neg, s2) :=
    if ceq (at_ s1 0) "-" then (true, skipn 1 s1)
    else if ceq (at_ s1 0) "+" then (false, skipn 1 s1) else (false, s1) in
  let (d, s3) := span isdigit s2 in
  match d with
  | [] => None
  | _ => Some (clamp (if neg then - digits_value d else digits_value d)%Z, s3)
  end.

(** sscanf (options, "%ld,%ld", ...) with defaults for the second number. *)
Definition scan_ld_ld (s : str) (dflt : Z) : option (Z * Z) :=
  match scan_ld s with
  | None => None
  | Some (a, r) =>
      if ceq (at_ r 0) "," then
        match scan_ld (skipn 1 r) with
        | Some (b, _) => Some (a, b)
        | None => Some (a, dflt)
        end
      else Some (a, dflt)
  end.

(** 1399-1406 and 1408-1415. *)
Definition t_upper (v : str) : str := map toupper v.
Definition t_lower (v : str) : str := map tolower v.

(** 1417-1429. *)
Definition t_trim (v : str) : str :=
  match snd (span isspace v) with
  | [] => []
  | r => rtrim r
  end.

(** 1431-1448, title. *)
Fixpoint t_title (prev_space : bool) (v : str) : str :=
  match v with
  | [] => []
  | c :: v' =>
      if isspace c then c :: t_title true v'
      else (if prev_space then toupper c else tolower c) :: t_title false v'
  end.

(** 1468-1475. *)
Definition t_capitalize (v : str) : str :=
  match v with [] => [] | c :: v' => toupper c :: v' end.

(** 1477-1508, slug: the loop, then the removal of trailing hyphens. *)
Fixpoint slug_loop (prev_hyphen : bool) (w : wr) (v : str) : wr :=
  match v with
  | [] => w
  | c :: v' =>
      if isalnum c then slug_loop false (w_store [tolower c] w) v'
      else if isspace c || ceq c "_" then
        if prev_hyphen then slug_loop prev_hyphen w v'
        else slug_loop true (w_store ["-"%char] w) v'
      else slug_loop prev_hyphen w v'
  end.
Fixpoint drop_hyphens (r : str) : str :=
  match r with
  | c :: r' => if ceq c "-" then drop_hyphens r' else r
  | [] => []
  end.
Definition t_slug (v : str) : wr :=
  let w := slug_loop false (w_new (length v * 2 + 1) 0) v in
  w_term (Wr (w_cap w) (rev (drop_hyphens (rev (w_out w)))) 0 (w_oob w)).

(** 1590-1601: count the occurrences of [old]; [None] without fuel. *)
Fixpoint count_old (fuel : nat) (old p : str) : option nat :=
  match fuel with
  | 0 => None
  | S fuel =>
      match strstr old p with
      | None => Some 0
      | Some i => option_map S (count_old fuel old (skipn (i + length old) p))
      end
  end.

(** 1608-1631: copy with replacements. *)
Fixpoint replace_loop (fuel : nat) (old new : str) (w : wr) (src : str) : option wr :=
  match fuel with
  | 0 => None
  | S fuel =>
      match strstr old src with
      | None => Some (w_term (w_store src w))
      | Some i =>
          replace_loop fuel old new (w_store new (w_store (firstn i src) w))
            (skipn (i + length old) src)
      end
  end.

(** 1590-1640, literal replacement ([old] is not empty). *)
Definition replace_literal (old new v : str) : option wr :=
  match count_old (S (length v)) old v with
  | None => None
  | Some 0 => Some (w_term (w_store v (w_new (length v + 1) 0)))
  | Some n =>
      replace_loop (S (length v)) old new
        (w_new (length v + n * (length new - length old) + 1) 0) v
  end.

Definition of_wr (o : option wr) : res :=
  match o with
  | None => Bad
  | Some w => if w_oob w then Bad else Val (cstr (w_out w))
  end.

(** 1510-1645, replace. *)
Definition t_replace (L : lib) (opts : option str) (v : str) : res :=
  match opts with
  | None => Val v
  | Some o =>
      match cut "," o with
      | None => Val v
      | Some ([], _) => Val v
      | Some (old, new) =>
          if starts (B "regex:") o then
            l_regex_replace L v (if 6 <? length old then skipn 6 old else old) new
          else of_wr (replace_literal old new v)
      end
  end.

(** 1647-1672, substring. *)
Definition t_substring (opts : option str) (v : str) : res :=
  match opts with
  | None => Val v
  | Some o =>
      match scan_ld_ld o (-1) with
      | None => Val v
      | Some (s0, e0) =>
          let len := Z.of_nat (length v) in
          let s1 := (if s0 <? 0 then len + s0 else s0)%Z in
          let e1 := (if e0 <? 0 then len + e0 else e0)%Z in
          let s2 := (if s1 <? 0 then 0 else s1)%Z in
          let e2 := (if e1 <? 0 then len else e1)%Z in
          let s3 := (if len <? s2 then len else s2)%Z in
          let e3 := (if len <? e2 then len else e2)%Z in
          if (e3 <? s3)%Z then Val []
          else if ((s3 <? 0) || (len <? e3))%Z then Bad
          else Val (firstn (Z.to_nat (e3 - s3)) (skipn (Z.to_nat s3) v))
      end
  end.

(** sscanf conversion %63s. *)
Definition scan_word63 (s : str) : str :=
  firstn 63 (fst (span (fun c => negb (isspace c)) (snd (span isspace s)))).

(** 1674-1696, truncate.  A length that became huge through the conversion to
    [size_t] makes the copy run off the block unless the allocation fails. *)
Definition t_truncate (opts : option str) (v : str) : res :=
  match opts with
  | None => Val v
  | Some o =>
      match scan_ld o with
      | None => Val v
      | Some (max, r) =>
          let suffix := if ceq (at_ r 0) "," then scan_word63 (skipn 1 r) else [] in
          if (Z.of_nat (length v) <=? max)%Z then Val v
          else
            let sl := Z.of_nat (length suffix) in
            let n := ((if sl <? max then max - sl else max) mod two64)%Z in
            let size := ((n + sl + 1) mod two64)%Z in
            if (long_max <? size)%Z then Null
            else if ((size <? n + sl + 1) || (Z.of_nat (length v) <? n))%Z then Bad
            else Val (firstn (Z.to_nat n) v ++ suffix)
      end
  end.

(** 1698-1703. *)
Definition t_default (opts : option str) (v : str) : str :=
  match v with
  | [] => match opts with Some o => o | None => [] end
  | _ => v
  end.

(** 1705-1735, escape.  [strcpy] and [snprintf] also store a terminator. *)
Definition escape_byte (c : ascii) : str :=
  if ceq c "&" then B "&amp;"
  else if ceq c "<" then B "&lt;"
  else if ceq c ">" then B "&gt;"
  else if ceq c DQ then B "&quot;"
  else if ceq c SQ then B "&#39;"
  else if between 32 126 c then [c]
  else B "&#" ++ dec (N.to_nat (code c)) ++ B ";".
Fixpoint escape_loop (w : wr) (v : str) : wr :=
  match v with
  | [] => w_term w
  | c :: v' => escape_loop (w_term (w_store (escape_byte c) w)) v'
  end.
Definition t_escape (v : str) : wr := escape_loop (w_new (length v * 6 + 1) 0) v.

(** 1737-1743: what follows the last slash. *)
Fixpoint t_basename (v : str) : str :=
  match v with
  | [] => []
  | c :: v' =>
      match strchr "/" v' with
      | Some _ => t_basename v'
      | None => if ceq c "/" then v' else v
      end
  end.

(** 1745-1764, urlencode. *)
Definition url_plain (c : ascii) : bool :=
  isalnum c || ceq c "-" || ceq c "_" || ceq c "." || ceq c "~".
Definition url_byte (c : ascii) : str :=
  if url_plain c then [c] else "%"%char :: hex2 c.
Fixpoint urlencode_loop (w : wr) (v : str) : wr :=
  match v with
  | [] => w_term w
  | c :: v' => urlencode_loop (w_term (w_store (url_byte c) w)) v'
  end.
Definition t_urlencode (v : str) : wr := urlencode_loop (w_new (length v * 3 + 1) 0) v.

(** isxdigit, and the value strtoul gives a hexadecimal digit. *)
Definition isxdigit (c : ascii) : bool := isdigit c || between 65 70 c || between 97 102 c.
Definition xvalue (c : ascii) : N :=
  (if isdigit c then code c - 48
   else if between 65 70 c then code c - 55 else code c - 87)%N.

(** 1766-1785, urldecode. *)
Fixpoint urldecode_loop (w : wr) (v : str) : wr :=
  match v with
  | [] => w_term w
  | c :: v' =>
      let plain := urldecode_loop (w_store [if ceq c "+" then SP else c] w) v' in
      if ceq c "%" then
        match v' with
        | a :: b :: v'' =>
            if isxdigit a && isxdigit b
            then urldecode_loop (w_store [ascii_of_N (16 * xvalue a + xvalue b)] w) v''
            else plain
        | _ => plain
        end
      else plain
  end.
Definition t_urldecode (v : str) : wr := urldecode_loop (w_new (length v + 1) 0) v.

(** 1787-1811. *)
Definition t_prefix (opts : option str) (v : str) : str :=
  match opts with Some o => o ++ v | None => v end.
Definition t_suffix (opts : option str) (v : str) : str :=
  match opts with Some o => v ++ o | None => v end.

(** 1813-1836, remove; the inner skip is the [skip] argument. *)
Fixpoint remove_loop (lit : str) (skip : nat) (w : wr) (v : str) : wr :=
  match v with
  | [] => w_term w
  | c :: v' =>
      match skip with
      | S k => remove_loop lit k w v'
      | 0 => if starts lit v then remove_loop lit (length lit - 1) w v'
             else remove_loop lit 0 (w_store [c] w) v'
      end
  end.
Definition t_remove (opts : option str) (v : str) : res :=
  match opts with
  | None | Some [] => Val v
  | Some o => of_wr (Some (remove_loop o 0 (w_new (length v + 1) 0) v))
  end.

(** 1838-1859, repeat. *)
Fixpoint times (n : nat) (v : str) : str :=
  match n with 0 => [] | S n => v ++ times n v end.
Definition t_repeat (opts : option str) (v : str) : res :=
  match opts with
  | None => Val v
  | Some o =>
      match scan_ld o with
      | None => Val v
      | Some (n, _) =>
          if (n <=? 0)%Z then Val v
          else match v with
               | [] => Val []
               | _ =>
                   let need := (Z.of_nat (length v) * n + 1)%Z in
                   let size := (need mod two64)%Z in
                   if (long_max <? size)%Z then Null
                   else if (size <? need)%Z then Bad
                   else Val (times (Z.to_nat n) v)
               end
      end
  end.

(** 1861-1871. *)
Definition t_reverse (v : str) : str := rev v.

(** 1911-1915. *)
Definition t_length (v : str) : str := dec (length v).

(** 1917-1937, pad. *)
Definition t_pad (opts : option str) (v : str) : res :=
  match opts with
  | None => Val v
  | Some o =>
      match scan_ld o with
      | None => Val v
      | Some (width, r) =>
          let c := if ceq (at_ r 0) "," then
                     match skipn 1 r with c :: _ => c | [] => SP end
                   else SP in
          if (width <=? Z.of_nat (length v))%Z then Val v
          else if (width =? long_max)%Z then Bad
          else Val (repeat c (Z.to_nat width - length v) ++ v)
      end
  end.

(** 1939-1942. *)
Definition t_contains (opts : option str) (v : str) : str :=
  match opts with
  | None => B "false"
  | Some o => match strstr o v with Some _ => B "true" | None => B "false" end
  end.

(** ** Arrays (1195-1367).  The state is the array, if any, and [is_array]. *)
Record tst := mktst { t_arr : option (list str); t_is : bool }.

Fixpoint join (d : str) (l : list str) : str :=
  match l with
  | [] => []
  | [x] => x
  | x :: l' => x ++ d ++ join d l'
  end.

(** "Not an array yet": 1212-1219 and the like. *)
Definition as_array (st : tst) (mk : list str) : list str :=
  if t_is st then match t_arr st with Some a => a | None => mk end else mk.

(** 1286-1367, slice. *)
Definition t_slice (opts : option str) (v : str) (st : tst) : res * tst :=
  let arr := as_array st (map (fun c => [c]) v) in
  let st1 := mktst (Some arr) true in
  match opts with
  | None => (Val v, st1)
  | Some o =>
      match scan_ld_ld o (-1) with
      | None => (Val v, st1)
      | Some (s0, l0) =>
          let n := Z.of_nat (length arr) in
          let s1 := (if s0 <? 0 then 0 else s0)%Z in
          if (n <=? s1)%Z then (Val [], st1)
          else
            let l1 := (if l0 <? 0 then n - s1 else l0)%Z in
            if (long_max <? s1 + l1)%Z then (Bad, st1)
            else
              let l2 := (if (0 <? l1) && (n <? s1 + l1) then n - s1 else l1)%Z in
              let part := firstn (Z.to_nat l2) (skipn (Z.to_nat s1) arr) in
              (Val (concat part), mktst (Some part) true)
      end
  end.

(** 1370-1396: an array becomes a string again. *)
Definition settle (st : tst) (v : str) : str * tst :=
  if t_is st then
    match t_arr st with
    | None => (v, st)
    | Some [] => ([], st)
    | Some [x] => (x, st)
    | Some l => (join (B ", ") l, mktst (t_arr st) false)
    end
  else (v, st).

(** The names of the transforms. *)
Inductive tname :=
| Tsplit | Tjoin | Tfirst | Tlast | Tslice
| Tupper | Tlower | Ttrim | Ttitle | Tstrftime | Tcapitalize | Tslug | Treplace
| Tsubstring | Ttruncate | Tdefault | Tescape | Tbasename | Turlencode | Turldecode
| Tprefix | Tsuffix | Tremove | Trepeat | Treverse | Tformat | Tlength | Tpad | Tcontains
| Tother.

Definition tname_of (n : str) : tname :=
  if seq_ n (B "split") then Tsplit else if seq_ n (B "join") then Tjoin
  else if seq_ n (B "first") then Tfirst else if seq_ n (B "last") then Tlast
  else if seq_ n (B "slice") then Tslice
  else if seq_ n (B "upper") then Tupper else if seq_ n (B "lower") then Tlower
  else if seq_ n (B "trim") then Ttrim else if seq_ n (B "title") then Ttitle
  else if seq_ n (B "strftime") then Tstrftime
  else if seq_ n (B "capitalize") then Tcapitalize
  else if seq_ n (B "slug") || seq_ n (B "slugify") then Tslug
  else if seq_ n (B "replace") then Treplace
  else if seq_ n (B "substring") || seq_ n (B "substr") then Tsubstring
  else if seq_ n (B "truncate") then Ttruncate
  else if seq_ n (B "default") then Tdefault
  else if seq_ n (B "escape") || seq_ n (B "html_escape") then Tescape
  else if seq_ n (B "basename") then Tbasename
  else if seq_ n (B "urlencode") then Turlencode
  else if seq_ n (B "urldecode") then Turldecode
  else if seq_ n (B "prefix") then Tprefix else if seq_ n (B "suffix") then Tsuffix
  else if seq_ n (B "remove") then Tremove else if seq_ n (B "repeat") then Trepeat
  else if seq_ n (B "reverse") then Treverse else if seq_ n (B "format") then Tformat
  else if seq_ n (B "length") then Tlength else if seq_ n (B "pad") then Tpad
  else if seq_ n (B "contains") then Tcontains else Tother.

(** The string transforms, 1399-1945. *)
Definition string_transform (L : lib) (t : tname) (opts : option str) (v : str) : res :=
  match t with
  | Tupper => Val (t_upper v)
  | Tlower => Val (t_lower v)
  | Ttrim => Val (t_trim v)
  | Ttitle => Val (t_title true v)
  | Tstrftime => match opts with None => Val v | Some o => Val (l_strftime L v o) end
  | Tcapitalize => Val (t_capitalize v)
  | Tslug => of_wr (Some (t_slug v))
  | Treplace => t_replace L opts v
  | Tsubstring => t_substring opts v
  | Ttruncate => t_truncate opts v
  | Tdefault => Val (t_default opts v)
  | Tescape => of_wr (Some (t_escape v))
  | Tbasename => Val (t_basename v)
  | Turlencode => of_wr (Some (t_urlencode v))
  | Turldecode => of_wr (Some (t_urldecode v))
  | Tprefix => Val (t_prefix opts v)
  | Tsuffix => Val (t_suffix opts v)
  | Tremove => t_remove opts v
  | Trepeat => t_repeat opts v
  | Treverse => Val (t_reverse v)
  | Tformat => match opts with None => Val v | Some o => l_format L v o end
  | Tlength => Val (t_length v)
  | Tpad => t_pad opts v
  | Tcontains => Val (t_contains opts v)
  | _ => Val v
  end.

(** [options && options[0] ? options : dflt]. *)
Definition or_default (opts : option str) (dflt : str) : str :=
  match opts with Some (c :: r) => c :: r | _ => dflt end.

(** 1191-1946, apply_transform. *)
Definition apply_transform (L : lib) (name : str) (opts : option str) (v : str) (st : tst) : res * tst :=
  match tname_of name with
  | Tsplit =>
      let a := l_split L v (or_default opts (B " ")) in
      (Val (hd [] a), mktst (Some a) true)
  | Tjoin =>
      let a := as_array st (l_split L v (B ",")) in
      match a with
      | [] => (Val [], mktst (Some a) true)
      | [x] => (Val x, mktst (Some a) true)
      | _ => (Val (join (or_default opts (B ", ")) a), mktst (Some a) false)
      end
  | Tfirst =>
      let a := as_array st (l_split L v (B ",")) in
      (Val (hd [] a), mktst (Some a) true)
  | Tlast =>
      let a := as_array st (l_split L v (B ",")) in
      (Val (last a []), mktst (Some a) true)
  | Tslice => t_slice opts v st
  | t => let (v1, st1) := settle st v in (string_transform L t opts v1, st1)
  end.

(** 1949-1984, apply_transform_chain: a NULL result gives back the first value. *)
Fixpoint chain_loop_t (L : lib) (orig : str) (c : chain) (v : str) (st : tst) : res :=
  match c with
  | [] => Val v
  | (name, opts) :: c' =>
      match apply_transform L name opts v st with
      | (Bad, _) => Bad
      | (Null, _) => Val orig
      | (Val v1, st1) => chain_loop_t L orig c' v1 st1
      end
  end.
Definition apply_chain (L : lib) (c : chain) (v : str) : res :=
  chain_loop_t L v c v (mktst None false).

(** ** Expansion of [%key] references (1987-2147) *)

(** 2006-2024: the offset of the bracket that closes the reference whose body
    starts at [s], at bracket depth [depth]. *)
Fixpoint close_at (depth : nat) (s : str) : option nat :=
  match s with
  | [] => None
  | c :: s' =>
      if ceq c "[" then option_map S (close_at (S depth) s')
      else if ceq c "]" then
        match depth with
        | 0 | 1 => Some 0
        | S d => option_map S (close_at d s')
        end
      else option_map S (close_at depth s')
  end.

(** 2066-2096: the value that replaces a reference, if any. *)
Definition var_value (L : lib) (transforms : bool) (m : meta) (pattern : str) : res :=
  let simple k := match meta_get m k with Some v => Val v | None => Null end in
  if transforms && match strchr ":" pattern with Some _ => true | None => false end then
    match parse_chain pattern with
    | None => Bad
    | Some None => simple pattern
    | Some (Some (key, c)) =>
        match meta_get m key with
        | None => Null
        | Some v => match c with [] => Val v | _ => apply_chain L c v end
        end
    end
  else simple pattern.

(** 2027-2038 and its repetitions: make room for [n] more bytes and a terminator. *)
Definition room (n : nat) (w : wr) : wr :=
  if w_cap w <? length (w_out w) + n + 1
  then Wr ((length (w_out w) + n + 1) * 2) (w_out w) (w_rem w) (w_oob w)
  else w.
Definition append (s : str) (w : wr) : wr := w_store s (room (length s) w).

(** 1998-2147, the loop of apex_metadata_replace_variables.  [value] gives the
    replacement of a pattern; the outer [None] is undefined behaviour in it or
    exhausted fuel.  2131-2143: the rest of the text gets an exactly fitting
    block. *)
Definition finish_vars (rest : str) (w : wr) : wr :=
  match rest with
  | [] => w_term w
  | _ =>
      let w1 := if w_cap w <? length (w_out w) + length rest + 1
                then Wr (length (w_out w) + length rest + 1) (w_out w) (w_rem w) (w_oob w)
                else w in
      w_term (w_store rest w1)
  end.
Fixpoint vars_loop (fuel : nat) (value : str -> res) (w : wr) (text : str) : option wr :=
  match fuel with
  | 0 => None
  | S fuel =>
      match strstr (B "[%") text with
      | None => Some (finish_vars text w)
      | Some i =>
          let body := skipn (i + 2) text in
          match close_at 1 body with
          | None => Some (finish_vars text w)
          | Some n =>
              let w1 := match i with 0 => w | _ => append (firstn i text) w end in
              let pattern := firstn n body in
              let kept := firstn (n + 3) (skipn i text) in
              let rest := skipn (S n) body in
              if 512 <=? n then vars_loop fuel value (append kept w1) rest
              else
                match value pattern with
                | Bad => None
                | Null => vars_loop fuel value (append kept w1) rest
                | Val v => vars_loop fuel value (append v w1) rest
                end
          end
      end
  end.
Definition replace_variables (value : str -> res) (m : meta) (text : str) : option wr :=
  match m with
  | [] => Some (w_term (w_store text (w_new (length text + 1) 0)))
  | _ => vars_loop (S (length text)) value (w_new (length text + 512) 0) text
  end.
