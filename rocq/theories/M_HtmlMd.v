(** Model of src/extensions/html_markdown.c.  Parsing and rendering of the content (cmark, the attribute
    lists, html_renderer.c) is an arbitrary function; texts are without NUL; allocation never fails and
    malloc(0) gives a buffer without a byte.  A store outside of a buffer is [Bad]. *)
From Verif Require Import Base.

Inductive answer := Out (s : str) | Bad.
Definition name_char (c : ascii) : bool := isalpha c || isdigit c || ceq c "-"%char || ceq c "_"%char.
Definition drop_space (s : str) : str := snd (span isspace s).
Definition key : str := B "markdown=".

(** * The start tag: html_markdown.c 20-101 *)
(** 59-92: [a] is the rest of the tag, [after] the text from the > on *)
Fixpoint attr_value (fuel : nat) (a after : str) : option str :=
  match fuel with
  | O => None
  | S fuel =>
      match a with
      | [] => None
      | _ =>
          let a := drop_space a in
          let next b := attr_value fuel (snd (span (fun c => negb (isspace c)) b)) after in
          if starts key a then
            let v := skipn 9 a in
            let quote := match v with q :: _ => ceq q DQ || ceq q SQ | [] => false end in
            let v' := if quote then skipn 1 v else v in
            let value :=
              if quote then match strchr (at_ v 0) (v' ++ after) with Some k => firstn k (v' ++ after) | None => v' end
              else fst (span (fun c => negb (isspace c || ceq c ">"%char)) (v' ++ after)) in
            if length value <? 64 then Some value else next v'
          else next a
      end
  end.
(** 27-97 at a position: the name, the value, and the length of the tag *)
Definition tag_at (s : str) : option (str * str * nat) :=
  match s with
  | c :: r =>
      if ceq c "<"%char && negb (ceq (at_ r 0) "/"%char) && negb (ceq (at_ r 0) "!"%char) then
        let (name, r') := span name_char r in
        if (length name =? 0) || (64 <=? length name) then None
        else
          match strchr ">"%char r' with
          | None => None
          | Some e =>
              match attr_value (S e) (firstn e r') (skipn e r') with
              | Some v => Some (name, v, 1 + length name + e + 1)
              | None => None
              end
          end
      else None
  | [] => None
  end.
Fixpoint find_tag (s : str) : option (nat * (str * str * nat)) :=
  match s with
  | [] => None
  | _ :: r =>
      match tag_at s with
      | Some t => Some (0, t)
      | None => match find_tag r with Some (k, t) => Some (S k, t) | None => None end
      end
  end.

(** * The end tag: html_markdown.c 107-137 *)
Definition same_name (t s : str) : bool := seq_ (map tolower (firstn (length t) s)) (map tolower t).
Definition ends_name (c : ascii) : bool := ceq c ">"%char || isspace c.
Definition end_at (t s : str) : bool := starts (B "</") s && same_name t (skipn 2 s) && ends_name (at_ s (2 + length t)).
Definition start_at (t s : str) : bool :=
  starts (B "<") s && negb (ceq (at_ s 1) "/"%char) && negb (ceq (at_ s 1) "!"%char) && same_name t (skipn 1 s) && ends_name (at_ s (1 + length t)).
(** the position behind the end tag *)
Fixpoint close_pos (t s : str) (depth : nat) : option nat :=
  match s with
  | [] => None
  | _ :: r =>
      if end_at t s then
        match depth with
        | S (S d) => option_map S (close_pos t r (S d))
        | _ => option_map S (strchr ">"%char s)
        end
      else option_map S (close_pos t r (if start_at t s then S depth else depth))
  end.
(** 205-212: how many bytes there are before the last < *)
Definition before_last (s : str) : nat := length (snd (span (fun c => negb (ceq c "<"%char)) (rev s))) - 1.

(** * The start tag without the attribute: html_markdown.c 255-327 *)
Fixpoint upto_markdown (a : str) : str * str :=
  match a with
  | [] => ([], [])
  | c :: r =>
      if isspace c && starts key (drop_space a) then ([], a)
      else let (x, t) := upto_markdown r in (c :: x, t)
  end.
Fixpoint skip_quoted (q : ascii) (a : str) : str :=
  match a with
  | [] => []
  | c :: r => if ceq c q then r else match ceq c BS, r with true, _ :: r' => skip_quoted q r' | _, _ => skip_quoted q r end
  end.
Fixpoint copy_attrs (fuel : nat) (a : str) (tag : str) : str :=
  match fuel with
  | O => tag
  | S fuel =>
      match drop_space a with
      | [] => tag
      | c :: r =>
          if starts key (c :: r) then
            let v := skipn 9 (c :: r) in
            match v with
            | q :: v' => if ceq q DQ || ceq q SQ then copy_attrs fuel (skip_quoted q v') tag
                         else copy_attrs fuel (snd (span (fun c => negb (isspace c)) v)) tag
            | [] => tag
            end
          else
            let (x, t) := upto_markdown r in
            let x := c :: x in
            copy_attrs fuel t (if length tag + length x + 1 <? 2048 then tag ++ SP :: x else tag)
      end
  end.
(** [whole] is the tag; None: the NUL is stored behind opening_tag[2047] *)
Definition opening (name whole : str) : option str :=
  let inside := removelast (skipn (1 + length name) whole) in
  let tag := match strchr SP inside with
             | Some k => copy_attrs (S (length inside)) (skipn k inside) (B "<" ++ name)
             | None => B "<" ++ name
             end in
  if length tag <? 2047 then Some (tag ++ B ">") else None.

(** * The text: html_markdown.c 143-408 *)
Record st := St { s_cap : nat; s_out : str }.
Definition room (w : st) : nat := s_cap w - length (s_out w).
Definition put (s : str) (w : st) : st := if length s <? room w then St (s_cap w) (s_out w ++ s) else w.
Definition newline (w : st) : st := if 0 <? room w then St (s_cap w) (s_out w ++ [NL]) else w.
(** 336-345 *)
Definition inline_html (h : str) : str :=
  if (7 <? length h) && starts (B "<p>") h && starts (rev (B "</p>" ++ [NL])) (rev h) then firstn (length h - 8) (skipn 3 h) else h.
Definition is_block (v : str) : bool := seq_ v (B "1") || seq_ v (B "block").
Definition is_span (v : str) : bool := seq_ v (B "span").

Section Text.
  Context (render : str -> str).
  Fixpoint go (fuel : nat) (s : str) (w : st) : option st :=
    match fuel with
    | O => None
    | S fuel =>
        match s with
        | [] => Some w
        | _ =>
            match find_tag s with
            | None => Some (put s w)
            | Some (k, (name, v, n)) =>
                let w := put (firstn k s) w in
                let tag := firstn n (skipn k s) in
                let content := skipn n (skipn k s) in
                match close_pos name content 1 with
                | None => go fuel content (put tag w)
                | Some e =>
                    let c := before_last (firstn e content) in
                    let rest := skipn e content in
                    let close := firstn (e - c) (skipn c content) in
                    if (is_block v || is_span v) && (0 <? c) then
                      match go fuel (firstn c content) (St (c * 2) []) with
                      | None => None
                      | Some i =>
                          if 0 <? room i then
                            match opening name tag with
                            | None => None
                            | Some o =>
                                let html := render (s_out i) in
                                let html := if is_span v then inline_html html else html in
                                go fuel rest (newline (put close (put html (put o w))))
                            end
                          else None
                      end
                    else go fuel rest (put (firstn (n + e) (skipn k s)) w)
                end
            end
        end
    end.
  Definition process (text : str) : answer :=
    match go (S (length text)) text (St (length text * 2) []) with
    | Some w => if 0 <? room w then Out (s_out w) else Bad
    | None => Bad
    end.
End Text.
