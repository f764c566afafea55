(** Addresses of images and their variants: url_encode (src/extensions/ial.c 1709-1749), url_with_2x_suffix (1898-1961), url_with_extension (1963-2002), is_video_url (2008-2032), url_with_3x_suffix (2064-2119), build_picture_srcset (2121-2171); in src/html_renderer.c url_with_extension (193-216), url_with_2x_suffix_auto and url_with_3x_suffix_auto (3484-3529), is_video_url_auto (3553-3575). Allocation succeeds; NULL is [None]; arguments are not NULL. *)
From Verif Require Import Base M_Attr M_Encode.

(** ial.c 1725-1739 *)
Definition kept (c : ascii) : bool :=
  between 65 90 c || between 97 122 c || between 48 57 c || existsb (ceq c) (B "-_.~/:?#[]@!$&'()*+,;=%").
(** 1724-1748; [None]: a byte is written behind the [cap] bytes. snprintf writes a NUL behind the three bytes. *)
Fixpoint enc (cap : nat) (out url : str) : option str :=
  match url with
  | [] => if length out <? cap then Some out else None
  | c :: r =>
      if kept c then if length out <? cap then enc cap (out ++ [c]) r else None
      else if length out + 4 <=? cap then enc cap (out ++ "%"%char :: hex2 c) r else None
  end.
Definition url_encode (url : str) : option str := enc (length url * 3 + 1) [] url.

(** 1913-1924 *)
Definition path_start (url : str) : nat :=
  let p := match strstr (B "://") url with Some k => k + 3 | None => 0 end in
  match strchr "/" (skipn p url) with Some j => p + j | None => 0 end.
(** 1926-1939: the length of the path in [t] *)
Definition path_len (t : str) : nat :=
  match strchr "?" t, strchr "#" t with
  | Some q, Some h => if q <? h then q else h
  | Some q, None => q
  | None, Some h => h
  | None, None => length t
  end.
(** 1926-1953: the place of the last dot and the end of the path *)
Definition cut (url : str) : option (nat * nat) :=
  let b := path_start url in
  let n := path_len (skipn b url) in
  match strrchr "." (firstn n (skipn b url)) with
  | Some e => Some (b + n - length e, b + n)
  | None => None
  end.
(** 1910-1961 and 2069-2119, [x] being @2x or @3x *)
Definition suffix (x url : str) : option str :=
  match cut url with Some (d, _) => Some (firstn d url ++ x ++ skipn d url) | None => None end.
(** 1973-2002 *)
Definition with_ext (url ext : str) : option str :=
  match cut url with Some (d, e) => Some (firstn d url ++ B "." ++ ext ++ skipn e url) | None => None end.

(** 2125-2171. The second [None]: snprintf has to cut the text, or its length is no longer what is left. *)
Definition srcset (url ext : str) (want2 want3 : bool) : option (option str) :=
  match with_ext url ext with
  | None => Some None
  | Some base =>
      let variant (want : bool) x := if want then match suffix x url with Some u => with_ext u ext | None => None end else None in
      let u2 := variant want2 (B "@2x") in
      let u3 := variant want3 (B "@3x") in
      let len := length base + 32 + match u2 with Some u => length u + 16 | None => 0 end + match u3 with Some u => length u + 16 | None => 0 end in
      let out := base ++ B " 1x" ++ match u2 with Some u => B ", " ++ u ++ B " 2x" | None => [] end ++ match u3 with Some u => B ", " ++ u ++ B " 3x" | None => [] end in
      if length out <? len then Some (Some out) else None
  end.

(** html_renderer.c: where the path ends *)
Definition end_auto (url : str) : nat :=
  match strchr "?" url with Some k => k | None => match strchr "#" url with Some k => k | None => length url end end.
(** 196-216 *)
Definition with_ext_auto (url ext : str) : option str :=
  match strrchr "." url with
  | Some s => let d := length url - length s in let e := end_auto url in if e <=? d then None else Some (firstn d url ++ B "." ++ ext ++ skipn e url)
  | None => None
  end.
(** 3487-3529 *)
Definition suffix_auto (x url : str) : option str :=
  let e := end_auto url in
  match strrchr "." (firstn e url) with Some s => let d := e - length s in Some (firstn d url ++ x ++ skipn d url) | None => None end.

Definition video_ext (e : str) : bool :=
  let is (lit : str) := (length e =? length lit) && seq_ (map tolower e) lit in
  is (B "mp4") || is (B "mov") || is (B "webm") || is (B "ogg") || is (B "ogv") || is (B "m4v").
(** ial.c 2011-2032: a dot at the very front does not count. *)
Definition is_video (url : str) : bool :=
  let p := firstn (end_auto url) url in
  match strrchr "." p with Some (_ :: e) => negb (length p =? S (length e)) && video_ext e | _ => false end.
(** html_renderer.c 3556-3575 *)
Definition is_video_auto (url : str) : bool :=
  match strrchr "." (firstn (end_auto url) url) with Some (_ :: e) => video_ext e | _ => false end.
