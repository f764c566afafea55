(** Model of the attribute lists of src/extensions/ial.c: parse_ial_content (85-265), is_ald_line
    (275-316), apex_extract_alds (321-391), find_ald (396-403), merge_attributes (425-466),
    extract_ial_from_text (472-586) and attributes_to_html (592-788).  Allocation never fails; the
    counters do not overflow.  The two chains of strcmp and of single bytes (206-257, 755-773) are
    look-ups in a list.  Arrays of strings are lists. *)
From Verif Require Import Base.

(** apex_attributes (ial.h) *)
Record attrs := Attrs { a_id : option str; a_classes : list str; a_pairs : list (str * str) }.
(** 53-56 *)
Definition no_attrs : attrs := Attrs None [] [].
(** 61-66 *)
Definition add_class (x : str) (a : attrs) : attrs := Attrs (a_id a) (a_classes a ++ [x]) (a_pairs a).
(** 71-79 *)
Definition add_pair (k v : str) (a : attrs) : attrs := Attrs (a_id a) (a_classes a) (a_pairs a ++ [(k, v)]).
Definition set_id (x : str) (a : attrs) : attrs := Attrs (Some x) (a_classes a) (a_pairs a).

(** What a call comes to: [Undef] when memory is read or written that the program must not read
    or write, [Fuel] when the model has not finished. *)
Inductive outcome (A : Type) := Fuel | Undef | Done (a : A).
Arguments Fuel {A}. Arguments Undef {A}. Arguments Done {A} a.

(** 142-143: an opening or closing curly quote *)
Definition curly (s : str) : bool :=
  starts ["226"%char; "128"%char; "156"%char] s || starts ["226"%char; "128"%char; "157"%char] s.
(** 155-170: the bytes before the first curly quote and what follows it *)
Fixpoint to_curly (s : str) : option (str * str) :=
  if curly s then Some ([], skipn 3 s)
  else match s with
       | [] => None
       | c :: s' => match to_curly s' with Some (v, r) => Some (c :: v, r) | None => None end
       end.
(** 175-185: the bytes before the closing quote and what follows it, a byte behind a backslash
    being passed over *)
Fixpoint to_quote (q : ascii) (s : str) : option (str * str) :=
  match s with
  | [] => None
  | c :: s' =>
      if ceq c q then Some ([], s')
      else if ceq c BS then
        match s' with
        | [] => None
        | d :: s'' => match to_quote q s'' with Some (v, r) => Some (c :: d :: v, r) | None => None end
        end
      else match to_quote q s' with Some (v, r) => Some (c :: v, r) | None => None end
  end.
(** 139-197: the value behind the equals sign (a null pointer becomes the empty string, 76) and
    what follows it *)
Definition value (s : str) : str * str :=
  if curly s then
    match to_curly (skipn 3 s) with Some p => p | None => ([], skipn 3 s) end
  else match s with
       | q :: s' =>
           if ceq q DQ || ceq q SQ then match to_quote q s' with Some p => p | None => ([], []) end
           else span (fun c => negb (isspace c) && negb (ceq c "}")) s
       | [] => ([], [])
       end.
(** 206-257 *)
Definition markers : list (str * str) :=
  [(B "@2x", B "data-srcset-2x"); (B "@3x", B "data-srcset-3x"); (B "webp", B "data-srcset-webp"); (B "avif", B "data-srcset-avif");
   (B "webm", B "data-video-webm"); (B "ogg", B "data-video-ogg"); (B "mp4", B "data-video-mp4"); (B "mov", B "data-video-mov");
   (B "m4v", B "data-video-m4v"); (B "auto", B "data-apex-auto")].
Definition marker (k : str) : option str :=
  match find (fun p => seq_ (fst p) k) markers with Some p => Some (snd p) | None => None end.
(** 95-262.  260-261: an unknown word that ends with the buffer; the pointer passes the NUL, what
    lies behind it is not initialised. *)
Fixpoint parse_loop (fuel : nat) (s : str) (a : attrs) : outcome attrs :=
  match fuel with
  | 0 => Fuel
  | S fuel =>
      match snd (span isspace s) with
      | [] => Done a
      | c :: s' =>
          if ceq c "#" then
            let (x, r) := span (fun c => negb (isspace c) && negb (ceq c ".") && negb (ceq c "}")) s' in
            parse_loop fuel r (match x with [] => a | _ => set_id x a end)
          else if ceq c "." then
            let (x, r) := span (fun c => negb (isspace c) && negb (ceq c ".") && negb (ceq c "#") && negb (ceq c "}")) s' in
            parse_loop fuel r (match x with [] => a | _ => add_class x a end)
          else
            let (k, r) := span (fun c => negb (ceq c "=") && negb (ceq c SP) && negb (ceq c TAB) && negb (ceq c "}")) (c :: s') in
            if ceq (at_ r 0) "=" then
              let (v, r') := value (skipn 1 r) in parse_loop fuel r' (add_pair k v a)
            else
              match marker k with
              | Some d => parse_loop fuel r (add_pair d (B "1") a)
              | None => match r with [] => Undef | _ :: r' => parse_loop fuel r' a end
              end
      end
  end.
(** 85-265: the buffer has 2048 bytes. *)
Definition parse (content : str) : outcome attrs :=
  let s := firstn 2047 content in parse_loop (S (length s)) s no_attrs.

(** 275-316; [None]: not a definition. *)
Definition ald_line (line : str) : option (str * outcome attrs) :=
  let p := snd (span isspace line) in
  if ceq (at_ p 0) "{" && ceq (at_ p 1) ":" then
    let (name, r) := span (fun c => negb (ceq c ":") && negb (ceq c "}")) (skipn 2 p) in
    if ceq (at_ r 0) ":" then
      match name with
      | [] => None
      | _ => match strchr "}" (skipn 1 r) with
             | Some k => Some (name, parse (firstn k (skipn 1 r)))
             | None => None
             end
      end
    else None
  else None.
(** 334-373: the definitions and the text that remains; the line buffer has 2048 bytes. *)
Fixpoint ald_loop (fuel : nat) (s : str) : outcome (list (str * attrs) * str) :=
  match fuel with
  | 0 => Fuel
  | S fuel =>
      match s with
      | [] => Done ([], [])
      | _ =>
          let (l, r) := span (fun c => negb (ceq c NL)) s in
          let line := firstn 2047 l in
          match ald_line line with
          | Some (name, Done a) =>
              match ald_loop fuel (skipn 1 r) with
              | Done (ds, t) => Done ((name, a) :: ds, t)
              | o => o
              end
          | Some (_, _) => Undef
          | None =>
              match r with
              | [] => Done ([], line)
              | _ :: r' => match ald_loop fuel r' with Done (ds, t) => Done (ds, line ++ NL :: t) | o => o end
              end
          end
      end
  end.
(** 321-391: the rest is not longer than the text, so it is copied over it. *)
Definition extract_alds (s : str) : outcome (list (str * attrs) * str) := ald_loop (S (length s)) s.

(** 396-403 *)
Definition find_ald (ds : list (str * attrs)) (name : str) : option attrs :=
  match find (fun d => seq_ (fst d) name) ds with Some d => Some (snd d) | None => None end.
(** 409-417 and 455-462 *)
Fixpoint put_pair (k v : str) (l : list (str * str)) : list (str * str) :=
  match l with
  | [] => [(k, v)]
  | (k', v') :: l' => if seq_ k' k then (k', v) :: l' else (k', v') :: put_pair k v l'
  end.
(** 425-466 *)
Definition merge (base over : attrs) : attrs :=
  Attrs (match a_id over with Some x => Some x | None => a_id base end)
        (a_classes base ++ a_classes over)
        (fold_left (fun l p => put_pair (fst p) (snd p) l) (a_pairs over) (a_pairs base)).

Definition rtrim (s : str) : str := rev (snd (span isspace (rev s))).
(** The text from the last [c] on. *)
Fixpoint strrchr (c : ascii) (s : str) : option str :=
  match s with
  | [] => None
  | d :: s' => match strrchr c s' with Some t => Some t | None => if ceq c d then Some s else None end
  end.
(** 472-586; [Done None]: no attribute list.  535: the NUL behind the first word is removed
    again before the name is looked up, so that the name is all that follows. *)
Definition extract_ial (ds : list (str * attrs)) (text : str) : outcome (option attrs) :=
  match strrchr "{" text with
  | None => Done None
  | Some t =>
      let c := at_ t 1 in
      if ceq c ":" || ceq c "#" || ceq c "." then
        match strchr "}" t with
        | None => Done None
        | Some k =>
            if forallb isspace (skipn (S k) t) then
              let off := if ceq c ":" then 2 else 1 in
              let content := firstn 2047 (firstn (k - off) (skipn off t)) in
              let (b, p) := span isspace content in
              match p with
              | [] => Done None
              | _ =>
                  let (token, _) := span (fun c => negb (isspace c) && negb (ceq c "#") && negb (ceq c ".") && negb (ceq c "=")) p in
                  let name := rtrim p in
                  let found := match token with [] => None | _ => find_ald ds name end in
                  match found with
                  | Some d =>
                      let (w, q) := span isspace (skipn (length token) name) in
                      match q with
                      | [] => Done (Some (merge d no_attrs))
                      | _ =>
                          match parse (skipn (length b + length token + length w) content) with
                          | Done a => Done (Some (merge d a))
                          | Fuel => Fuel
                          | Undef => Undef
                          end
                      end
                  | None =>
                      match parse (firstn (k - off) (skipn off t)) with
                      | Done a => Done (Some a)
                      | Fuel => Fuel
                      | Undef => Undef
                      end
                  end
              end
            else Done None
        end
      else Done None
  end.

(** ** attributes_to_html *)
(** snprintf (buf, n, ...) *)
Definition snprintf (n : nat) (s : str) : str := firstn (n - 1) s.
(** name="value", after a space if it is not the first one *)
Definition emit (first : bool) (k v : str) : str := (if first then [] else [SP]) ++ k ++ B "=" ++ [DQ] ++ v ++ [DQ].
Definition add (n : nat) (k v : str) (st : bool * wr) : bool * wr :=
  (false, w_puts_lt (snprintf n (emit (fst st) k v)) (snd st)).
(** 612-622 *)
Definition html_id (a : attrs) (st : bool * wr) : bool * wr :=
  match a_id a with Some x => add 512 (B "id") x st | None => st end.
(** 631-634 *)
Fixpoint put_classes (first : bool) (l : list str) (w : wr) : wr :=
  match l with
  | [] => w
  | x :: l => put_classes false l (w_puts_lt x (if first then w else w_puts_lt [SP] w))
  end.
(** 625-636 *)
Definition html_classes (a : attrs) (st : bool * wr) : bool * wr :=
  match a_classes a with
  | [] => st
  | l => (false, w_puts_lt [DQ] (put_classes true l (w_puts_lt ((if fst st then [] else [SP]) ++ B "class=" ++ [DQ]) (snd st))))
  end.
Definition is_size (k : str) : bool := seq_ k (B "width") || seq_ k (B "height").
(** 669-706: the digits, if the value is a number or a number of pixels *)
Definition ends_px (v : str) : bool :=
  Nat.leb 2 (length v) && ceq (at_ v (length v - 2)) "p" && ceq (at_ v (length v - 1)) "x".
(** The style buffer has 1024 bytes, [bad]: something was written outside of it or of int_val,
    which has 64. *)
Record sty := Sty { s_text : str; s_has : bool; s_bad : bool }.
Definition s_cat (x : str) (y : sty) : sty :=
  let t := s_text y ++ x in Sty t (s_has y) (s_bad y || Nat.leb 1024 (length t)).
(** 639-656 *)
Definition html_style0 (a : attrs) : sty :=
  match find (fun p => seq_ (fst p) (B "style")) (a_pairs a) with
  | Some (_, c :: v) => Sty (firstn 1023 (c :: v)) true false
  | _ => Sty [] false false
  end.
(** 708-741 *)
Definition html_size (kv : str * str) (x : (bool * wr) * sty) : (bool * wr) * sty :=
  let (k, v) := kv in let (st, y) := x in
  if is_size k then
    if ends_px v && forallb isdigit (firstn (length v - 2) v) then
      (add 1024 k (firstn (length v - 2) v) st, Sty (s_text y) (s_has y) (s_bad y || Nat.leb 64 (length v - 2)))
    else if negb (ends_px v) && forallb isdigit v then (add 1024 k v st, y)
    else
      let y := s_cat v (s_cat (B ": ") (s_cat k (if s_has y then s_cat (B "; ") y else y))) in
      (st, Sty (s_text y) true (s_bad y))
  else (st, y).
Definition html_sizes (l : list (str * str)) (x : (bool * wr) * sty) : (bool * wr) * sty :=
  fold_left (fun x kv => html_size kv x) l x.
(** 745-754 *)
Definition html_style (y : sty) (st : bool * wr) : bool * wr :=
  if s_has y then add 1024 (B "style") (s_text y) st else st.
(** 762-773: the markers, which are not written *)
Definition hidden (k : str) : bool := existsb (fun p => seq_ k (snd p)) markers.
(** 757-784 *)
Definition html_other (kv : str * str) (st : bool * wr) : bool * wr :=
  if is_size (fst kv) || seq_ (fst kv) (B "style") || hidden (fst kv) then st else add 1024 (fst kv) (snd kv) st.
(** 592-788; [None]: undefined *)
Definition to_html (a : attrs) : option str :=
  let st := html_classes a (html_id a (true, w_new 4096 4096)) in
  let (st, y) := html_sizes (a_pairs a) (st, html_style0 a) in
  let st := fold_left (fun st kv => html_other kv st) (a_pairs a) (html_style y st) in
  let w := w_term (snd st) in
  if s_bad y || w_oob w then None else Some (w_out w).
