(** Model of heading texts and ids: header_ids.c 396-570, html_renderer.c 1075-1397.
    Allocation never fails.  The function [idf] stands for apex_generate_header_id
    (see M_Ids). *)
From Verif Require Import Base M_Toc.

(** ** header_ids.c 396-458: the text of a heading *)
(** A child of the heading: text, code, or anything else (with the text inside). *)
Inductive piece := Txt (s : str) | Code (s : str) | Other (s : str).
(** 416-426: [capacity] is never updated, so the new block always has 512 bytes.
    If more than that is in use, [remaining] wraps around; then the flag is set
    already. *)
Definition put_literal (s : str) (w : wr) : wr :=
  let w := if Nat.leb (w_rem w) (length s)
           then Wr 512 (w_out w) (512 - length (w_out w)) (w_oob w) else w in
  w_set_rem (w_rem w - length s) (w_store s w).
Definition put_piece (w : wr) (p : piece) : wr :=
  match p with
  | Txt s | Code s => put_literal s w
  | Other _ => w
  end.
Definition heading_text (l : list piece) : wr := w_term (fold_left put_piece l (w_new 256 256)).

(** ** header_ids.c 473-567: an id written in the heading *)
(** strrchr: what is before the last [c], and what follows it. *)
Fixpoint split_last (c : ascii) (s : str) : option (str * str) :=
  match s with
  | [] => None
  | d :: s' =>
      match split_last c s' with
      | Some (a, b) => Some (d :: a, b)
      | None => if ceq d c then Some ([], s') else None
      end
  end.
(** 511-513: white space at the end is removed. *)
Fixpoint rtrim (s : str) : str :=
  match s with
  | [] => []
  | c :: s' => match rtrim s' with
               | [] => if isspace c then [] else [c]
               | r => c :: r
               end
  end.
Definition only_space (s : str) : bool := match snd (span isspace s) with [] => true | _ => false end.
(** 483-523.  The new text and the id. *)
Definition mmd_id (text : str) : option (str * str) :=
  match split_last "[" text with
  | Some (a, b) =>
      match strchr "]" b with
      | Some (S k) =>
          if ceq (at_ b 0) "%" then None
          else if only_space (skipn (k + 2) b) then Some (rtrim a, firstn (S k) b) else None
      | _ => None
      end
  | None => None
  end.
(** 525-564 *)
Definition kramdown_id (text : str) : option (str * str) :=
  match split_last "{" text with
  | Some (a, b) =>
      if ceq (at_ b 0) "#" then
        match strchr "}" b with
        | Some (S (S k)) =>
            if only_space (skipn (k + 3) b) then Some (rtrim a, firstn (S k) (skipn 1 b)) else None
        | _ => None
        end
      else None
  | None => None
  end.
Definition manual_id (text : str) : option (str * str) :=
  match mmd_id text with
  | Some r => Some r
  | None => kramdown_id text
  end.
(** 630-634 *)
Definition id_attr (id : str) : str := B "id=""" ++ id ++ B """".

(** ** html_renderer.c 1075-1397 *)
(** 1099-1121: the id in the attributes, if any. *)
Definition attr_id (attrs : str) : option str :=
  match strstr (B "id=""") attrs with
  | Some k =>
      let v := skipn (k + 4) attrs in
      match strchr DQ v with
      | Some (S n) => Some (firstn (S n) v)
      | _ => None
      end
  | None => None
  end.
Definition heading_id (idf : str -> str) (h : (nat * str) * option str) : str :=
  match match snd h with Some a => attr_id a | None => None end with
  | Some i => i
  | None => idf (snd (fst h))
  end.
(** 1090-1148: all headings of the document in order. *)
Fixpoint headings (n : node) : list ((nat * str) * option str) :=
  match n with
  | Node h a l =>
      (match h with Some x => [(x, a)] | None => [] end) ++
      (fix all (l : list node) : list ((nat * str) * option str) :=
         match l with
         | [] => []
         | n :: l => headings n ++ all l
         end) l
  end.

(** 1172-1174 *)
Definition opens_heading (s : str) : bool :=
  ceq (at_ s 0) "<" && ceq (at_ s 1) "h" && between 49 54 (at_ s 2) &&
  (ceq (at_ s 3) ">" || isspace (at_ s 3)).
(** 1233-1236 and 1271 / 1337: snprintf into 512 bytes. *)
Definition anchor (id : str) : str :=
  firstn 511 (B "<a href=""#" ++ id ++ B """ aria-hidden=""true"" class=""anchor"" id=""" ++ id ++ B """></a>").
Definition id_string (id : str) : str := firstn 511 (id_attr id).
(** 1256-1267: behind [id=] *)
Definition is_quote (c : ascii) : bool := ceq c DQ || ceq c "'".
Definition old_id_end (s : str) : str :=
  let s := snd (span (fun c => ceq c SP || is_quote c) s) in
  let s := snd (span (fun c => negb (is_quote c || ceq c SP || ceq c ">")) s) in
  if is_quote (at_ s 0) then skipn 1 s else s.
Definition put_all (s : str) (w : wr) : wr := fold_left (fun w c => w_put c w) s w.

(** 1170-1372.  [ids] are the ids of the headings, [idx] the number of the next one.
    With an id already in the tag the number is increased twice (1289 and 1348). *)
Fixpoint inject_loop (fuel : nat) (anchors : bool) (ids : list str) (s : str) (idx : nat) (w : wr) : option wr :=
  match fuel with
  | 0 => None
  | S fuel =>
      match s with
      | [] => Some w
      | c :: s' =>
          if opens_heading s then
            let (tag, r) := span (fun c => negb (ceq c ">")) s in
            match r with
            | [] => inject_loop fuel anchors ids s' idx (w_put c w)
            | gt :: r' =>
                let old := strstr (B "id=") tag in
                match nth_error ids idx with
                | Some id =>
                    if anchors then
                      inject_loop fuel anchors ids r' (S idx) (w_puts_le (anchor id) (w_puts_le (tag ++ [gt]) w))
                    else
                      match old with
                      | Some k =>
                          let w := w_puts_le (id_string id) (w_puts_le (firstn k tag) w) in
                          inject_loop fuel anchors ids r (S (S idx)) (put_all (old_id_end (skipn (k + 3) tag)) w)
                      | None =>
                          let w := w_puts_le (skipn 3 tag) (w_puts_le (firstn 3 tag) w) in
                          let w := w_puts_le (id_string id) (w_put SP w) in
                          inject_loop fuel anchors ids r' (S idx) (w_put gt w)
                      end
                | None =>
                    inject_loop fuel anchors ids r' (match old with Some _ => idx | None => S idx end)
                      (w_puts_le (tag ++ [gt]) w)
                end
            end
          else inject_loop fuel anchors ids s' idx (w_put c w)
      end
  end.
(** 1374-1385 *)
Definition finish (w : wr) : wr :=
  w_term (if Nat.ltb (w_rem w) 1 then Wr ((length (w_out w) + 1) * 2 + 1) (w_out w) (length (w_out w) + 2) (w_oob w) else w).
Definition inject (anchors : bool) (html : str) (ids : list str) : option wr :=
  match ids with
  | [] => Some (Wr (S (length html)) html 0 false)
  | _ =>
      let cap := length html + 100 * length ids in
      option_map finish (inject_loop (S (length html)) anchors ids html 0 (w_new (S cap) cap))
  end.
(** 1075-1151, with [generate_ids] *)
Definition inject_header_ids (idf : str -> str) (anchors : bool) (html : str) (document : node) : option wr :=
  inject anchors html (map (heading_id idf) (headings document)).
