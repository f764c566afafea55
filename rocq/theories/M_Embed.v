(** Images in the page are replaced by their contents: apex_detect_mime_type, apex_resolve_image_path, apex_read_and_encode_image and apex_embed_images (src/apex.c 214-480), called in 5448-5457. Allocation never fails; [size_t] does not overflow. *)
From Verif Require Import Base M_Attr M_Encode M_Relax M_Spans.

(** The file system: the bytes of a regular file that can be read (267-316, 383) *)
Definition files := str -> option str.

(** 218-253; strncasecmp (ext, lit, length lit) == 0 *)
Definition nocase (lit s : str) : bool := seq_ (map tolower (firstn (length lit) s)) lit.
Definition stop_ext (c : ascii) : bool := ceq c "?" || ceq c "#" || ceq c "/" || ceq c SP.
Definition mime (path : str) : str :=
  match strrchr "." path with
  | Some (_ :: ext) =>
      let n := length (fst (span (fun c => negb (stop_ext c)) ext)) in
      if (n =? 3) && (nocase (B "jpg") ext || nocase (B "jpe") ext) then B "image/jpeg"
      else if (n =? 4) && nocase (B "jpeg") ext then B "image/jpeg"
      else if (n =? 3) && nocase (B "png") ext then B "image/png"
      else if (n =? 3) && nocase (B "gif") ext then B "image/gif"
      else if (n =? 4) && nocase (B "webp") ext then B "image/webp"
      else if (n =? 3) && nocase (B "svg") ext then B "image/svg+xml"
      else if (n =? 3) && nocase (B "bmp") ext then B "image/bmp"
      else if (n =? 3) && nocase (B "ico") ext then B "image/x-icon"
      else B "image/png"
  | _ => B "image/png"
  end.

(** 258-277 *)
Definition resolve (url : str) (base : option str) : str :=
  if ceq (at_ url 0) "/" then url else match base with None | Some [] => url | Some d => d ++ B "/" ++ url end.

(** 282-316; files of more than ten megabytes are not read. *)
Definition encoded (fs : files) (path : str) : option str :=
  match fs path with
  | Some c => if (10 * 1024 * 1024 <? N.of_nat (length c))%N then None else base64_encode c
  | None => None
  end.

(** 371-404 *)
Definition data_url (fs : files) (base : option str) (url : str) : option str :=
  if starts (B "data:") url || (starts (B "http://") url || starts (B "https://") url || starts (B "//") url) then None
  else let p := resolve url base in
       match encoded fs p with Some e => Some (B "data:" ++ mime p ++ B ";base64," ++ e) | None => None end.

(** 350-366: where src= stands and how long the address is; [e] is the place of the first > *)
Definition source (s : str) (e : nat) : option (nat * nat) :=
  let k := match strstr (B "src=" ++ [DQ]) s with
           | Some k => if e <? k then strstr (B "src='") s else Some k
           | None => strstr (B "src='") s
           end in
  match k with
  | Some k =>
      if k <? e then
        let q := if ceq (at_ s (k + 4)) DQ then DQ else SQ in
        match strchr q (skipn (k + 5) s) with
        | Some j => if k + 5 + j <? e then Some (k, j) else None
        | None => None
        end
      else None
  | None => None
  end.

(** 409-424 and 452-464 *)
Definition room (n : nat) (b : buf) : buf := if remaining b <? n then resize ((length (b_out b) + n + 1) * 2) b else b.
(** 343-348 and 469-475: a byte is lost when there is no room. *)
Definition put1 (c : ascii) (b : buf) : buf := if 0 <? remaining b then write [c] b else b.

(** One turn of the loop 337-477: a byte, or [n] bytes for which [o] is written after making room for [need] bytes *)
Inductive move := Byte | Piece (n : nat) (o : str) (need : nat).
Definition turn (fs : files) (base : option str) (s : str) : move :=
  if starts (B "<img") s then
    match strchr ">" s with
    | None => Byte
    | Some e =>
        match source s e with
        | Some (k, j) =>
            match data_url fs base (firstn j (skipn (k + 5) s)) with
            | Some d =>
                let after := e - (k + 5 + j) in
                Piece (e + 1) (firstn k s ++ B "src=" ++ [DQ] ++ d ++ [DQ] ++ firstn after (skipn (k + 5 + j + 1) s)) (k + 5 + length d + 1 + after + 1)
            | None => Piece (e + 1) (firstn (e + 1) s) (e + 1)
            end
        | None => Piece (e + 1) (firstn (e + 1) s) (e + 1)
        end
    end
  else Byte.

Fixpoint go (fuel : nat) (fs : files) (base : option str) (s : str) (b : buf) : buf :=
  match s with
  | [] => b
  | c :: r =>
      match fuel with
      | 0 => fail b
      | S fuel =>
          match turn fs base s with
          | Byte => go fuel fs base r (put1 c b)
          | Piece n o need => go fuel fs base (skipn n s) (write o (room need b))
          end
      end
  end.

(** [None]: something is written behind the buffer; 479 writes the NUL without a check. *)
Definition embed (fs : files) (base : option str) (html : str) : option str :=
  let b := go (S (length html)) fs base html (Buf (length html * 3 + 1024) [] false) in
  if b_bad b || (remaining b =? 0) then None else Some (b_out b).
