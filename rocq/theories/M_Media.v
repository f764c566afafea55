(** Images marked for automatic replacement become pictures and videos: extract_attr_from_tag (src/html_renderer.c 159-191), find_tag_end (217-236), video_type_from_url (238-258), file_exists and resolve_path_for_check (3458-3482), url_ends_with_wildcard (3531-3538) and apex_expand_auto_media (3577-3951), called in src/apex.c 5382-5395. Allocation succeeds; [size_t] does not overflow. *)
From Verif Require Import Base M_Attr M_Relax M_Spans M_Embed M_ImgUrl.

(** The regular files *)
Definition present := str -> bool.

(** 219-236: the place of the > that ends the tag; [q] is the open quote. *)
Fixpoint tag_end (q : option ascii) (s : str) : option nat :=
  match s with
  | [] => None
  | c :: r =>
      match q with
      | Some k =>
          if ceq c BS then match r with [] => None | _ :: r' => option_map (fun n => n + 2) (tag_end q r') end
          else option_map S (tag_end (if ceq c k then None else q) r)
      | None =>
          if ceq c DQ || ceq c SQ then option_map S (tag_end (Some c) r)
          else if ceq c ">" then Some 0 else option_map S (tag_end None r)
      end
  end.

(** 175-181: the value up to the quote; [n] bytes of the tag are left. *)
Fixpoint value (q : ascii) (s : str) (n : nat) : option str :=
  match n, s with
  | S m, c :: r =>
      if ceq c q then Some []
      else if ceq c BS then
        match m, r with
        | S m', d :: r' => option_map (fun v => c :: d :: v) (value q r' m')
        | _, _ => None
        end
      else option_map (cons c) (value q r m)
  | _, _ => None
  end.
(** 163-191; [gap]: the tag begins here or white space stands in front. *)
Fixpoint attr (gap : bool) (name s : str) (n : nat) : option str :=
  match n, s with
  | S m, c :: r =>
      if gap && nocase name s && ceq (at_ s (length name)) "=" then
        let k := length name + 1 in
        if n <=? k then None
        else let q := at_ s k in
             if ceq q DQ || ceq q SQ then value q (skipn (k + 1) s) (n - (k + 1)) else None
      else attr (isspace c) name r m
  | _, _ => None
  end.

(** 3458-3482: whether the address names a file below the base directory *)
Definition there (fs : present) (base url : str) : bool :=
  match base, url with
  | _ :: _, c :: _ => negb (ceq c "/") && (match strstr (B "://") url with Some _ => false | None => true end) && fs (base ++ B "/" ++ url)
  | _, _ => false
  end.
(** 3534-3538 *)
Definition wildcard (url : str) : bool := (2 <=? length url) && seq_ (skipn (length url - 2) url) (B ".*").
Fixpoint first_there (fs : present) (base url : str) (exts : list str) : option str :=
  match exts with
  | [] => None
  | e :: l => match with_ext_auto url e with
              | Some c => if there fs base c then Some c else first_there fs base url l
              | None => first_there fs base url l
              end
  end.
(** 3636-3690: the address of an existing file *)
Definition effective (fs : present) (base src : str) : option str :=
  if wildcard src then first_there fs base src [B "mp4"; B "webm"; B "ogg"; B "ogv"; B "mov"; B "m4v"; B "jpg"; B "jpeg"; B "png"; B "gif"; B "webp"; B "avif"]
  else if there fs base src then Some src else None.

(** 241-258 *)
Definition video_type (url : str) : str :=
  match strrchr "." url with
  | Some (_ :: ext) =>
      let n := end_auto ext in
      if (3 <=? n) && nocase (B "mp4") ext then B "video/mp4"
      else if (4 <=? n) && nocase (B "webm") ext then B "video/webm"
      else if (3 <=? n) && nocase (B "ogg") ext then B "video/ogg"
      else if (3 <=? n) && nocase (B "ogv") ext then B "video/ogg"
      else if (3 <=? n) && nocase (B "mov") ext then B "video/quicktime"
      else B "video/mp4"
  | _ => B "video/mp4"
  end.

(** A chain of [w += snprintf (w, cap - (w - replacement), ..)]. [None]: a piece is cut; from then on [w] points behind the buffer and the size that is left wraps around. *)
Definition print (cap : nat) (ps : list str) : option str := let o := concat ps in if length o <? cap then Some o else None.

Definition quoted (s : str) : str := DQ :: s ++ [DQ].
Definition source (url type : str) : str := B "<source src=" ++ quoted url ++ B " type=" ++ quoted type ++ B ">".
(** 3695-3724 *)
Definition video (fs : present) (base src alt : str) : option str :=
  let variant e := match with_ext_auto src (fst e) with Some u => if there fs base u then [source u (snd e)] else [] | None => [] end in
  print (512 + length src * 6)
    ([B "<video"] ++ (match alt with [] => [] | _ => [B " title=" ++ quoted alt] end) ++ [B ">"]
     ++ flat_map variant [(B "webm", B "video/webm"); (B "ogg", B "video/ogg"); (B "mp4", B "video/mp4"); (B "mov", B "video/quicktime"); (B "m4v", B "video/mp4")]
     ++ [source src (video_type src); B "</video>"]).

(** snprintf into a buffer of 512 bytes *)
Definition clip (s : str) : str := firstn 511 s.
Definition join (s u : str) (mark : string) : str := clip (s ++ (match s with [] => [] | _ => B ", " end) ++ u ++ B mark).
(** 3796-3843 for one format: the existing variants, and the list *)
Definition v1 (src ext : str) := with_ext_auto src ext.
Definition vx (x src ext : str) := match suffix_auto x src with Some u => with_ext_auto u ext | None => None end.
Definition has (fs : present) (base : str) (u : option str) : bool := match u with Some u => there fs base u | None => false end.
(** 3745-3769: without the first variant the others are not looked for. *)
Definition has_x (fs : present) (base x src ext : str) : bool := match v1 src ext with Some _ => has fs base (vx x src ext) | None => false end.
Definition format (fs : present) (base src ext : str) : list str :=
  let h1 := has fs base (v1 src ext) in
  let h2 := has_x fs base (B "@2x") src ext in
  let h3 := has_x fs base (B "@3x") src ext in
  if h1 || h2 || h3 then
    let s := match v1 src ext with Some u => clip (u ++ B " 1x") | None => [] end in
    let s := match vx (B "@2x") src ext with Some u => if h2 then join s u " 2x" else s | None => s end in
    let s := match vx (B "@3x") src ext with Some u => if h3 then join s u " 3x" else s | None => s end in
    match s with [] => [] | _ => [B "<source type=" ++ quoted (B "image/" ++ ext) ++ B " srcset=" ++ quoted s ++ B ">"] end
  else [].
(** 3846-3862; [None]: strcat writes behind the 512 bytes. *)
Definition srcset_attr (fs : present) (base src : str) : option str :=
  let u2 := suffix_auto (B "@2x") src in
  let u3 := suffix_auto (B "@3x") src in
  if has fs base u2 || has fs base u3 then
    let s := clip (B " srcset=" ++ [DQ] ++ src ++ B " 1x") in
    let s := match u2 with Some u => if has fs base u2 then clip (s ++ B ", " ++ u ++ B " 2x") else s | None => s end in
    let s := match u3 with Some u => if has fs base u3 then clip (s ++ B ", " ++ u ++ B " 3x") else s | None => s end in
    if length s <? 511 then Some (s ++ [DQ]) else None
  else Some [].
(** 3726-3884; the outer [None] is a failure, the inner one: nothing to replace. *)
Definition picture (fs : present) (base src alt title : str) : option (option str) :=
  let f := format fs base src (B "avif") ++ format fs base src (B "webp") in
  let any := existsb (fun e => has fs base (v1 src e) || has_x fs base (B "@2x") src e || has_x fs base (B "@3x") src e) [B "webp"; B "avif"] in
  if any || has fs base (suffix_auto (B "@2x") src) || has fs base (suffix_auto (B "@3x") src) then
    match srcset_attr fs base src with
    | None => None
    | Some sa =>
        option_map Some (print (1024 + length src * 8)
          ((if any then [B "<picture>"] else []) ++ f
           ++ [B "<img src=" ++ quoted src ++ B " alt=" ++ quoted alt ++ (match title with [] => [] | _ => B " title=" ++ quoted title end) ++ sa ++ B ">" ++ (if any then B "</picture>" else [])]))
    end
  else Some None.

(** 3627-3886 for the tag of [n] bytes at the front of [s] *)
Definition replacement (fs : present) (base s : str) (n : nat) : option (option str) :=
  let get name := match attr true name s n with Some v => v | None => [] end in
  match effective fs base (get (B "src")) with
  | None => Some None
  | Some src => if is_video_auto src then option_map Some (video fs base src (get (B "alt"))) else picture fs base src (get (B "alt")) (get (B "title"))
  end.

(** 3598-3600 *)
Definition img_tag (s : str) : bool := nocase (B "<img") s && (ceq (at_ s 4) SP || ceq (at_ s 4) TAB || ceq (at_ s 4) ">" || ceq (at_ s 4) "/").
Definition marked (s : str) : bool := match strstr (B "data-apex-replace-auto=1") s with Some _ => true | None => false end.

(** One turn of the loop 3597-3941 *)
Inductive move := Raw | Byte | Copy (n more : nat) | Repl (n : nat) (o : str) | Fail.
Definition turn (fs : present) (base s : str) : move :=
  if img_tag s then
    match tag_end None s with
    | None => Raw
    | Some e =>
        if marked s then match replacement fs base s (e + 1) with None => Fail | Some (Some o) => Repl (e + 1) o | Some None => Copy (e + 1) 1024 end
        else Copy (e + 1) 2048
    end
  else Byte.
Fixpoint go (fuel len : nat) (fs : present) (base s : str) (b : buf) : buf :=
  match s with
  | [] => b
  | c :: r =>
      match fuel with
      | 0 => fail b
      | S fuel =>
          let used := length (b_out b) in
          match turn fs base s with
          | Raw => go fuel len fs base r (write [c] b)
          | Byte => go fuel len fs base r (write [c] (if remaining b <? 2 then resize (used + len + 1024) b else b))
          | Copy n more => go fuel len fs base (skipn n s) (write (firstn n s) (if remaining b <=? n then resize (used + n + more) b else b))
          | Repl n o => go fuel len fs base (skipn n s) (write o (if remaining b <? length o then resize (used + length o + 1024) b else b))
          | Fail => fail b
          end
      end
  end.
(** [None]: something is written behind a buffer, or cut. The NUL always finds room (3943-3949). *)
Definition expand (fs : present) (base html : str) : option str :=
  match base with
  | [] => Some html
  | _ => let b := go (S (length html)) (length html) fs base html (Buf (length html * 2 + 2048) [] false) in
         if b_bad b then None else Some (b_out b)
  end.
