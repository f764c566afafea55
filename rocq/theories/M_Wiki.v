(** Model of src/extensions/wiki_links.c: [[Page]], [[Page|Text]] and [[Page#Section]] in the texts of a
    tree (M_Md) become links.  Allocation never fails; the locale is "C" (setlocale is never
    called).  The match function (304-387) is not used. *)
From Verif Require Import Base M_Md.

Inductive space_mode := Dash | NoSpace | Underscore | Space.
Record config := Config { base_path : str; extension : option str; mode_of : space_mode; sanitize : bool }.

(** 53-85 *)
Definition parse_wiki (content : str) : str * option str * option str :=
  let '(page, display) := match strchr "|"%char content with
    | Some k => (firstn k content, Some (skipn (S k) content))
    | None => (content, None)
    end in
  match strchr "#"%char page with
  | Some h => (firstn h page, display, Some (skipn (S h) page))
  | None => (page, display, None)
  end.

Definition byte (n : nat) : ascii := ascii_of_nat n.
(** 92-111; the table: what is not listed is 0 *)
Definition latin1_map : str := B "aaaaaa0ceeeeiiiidnooooo0ouuuuy00aaaaaa0ceeeeiiiidnooooo0ouuuuy0y".
Definition latin1_to_ascii (low : ascii) : option ascii :=
  if (128 <=? nat_of_ascii low) && (nat_of_ascii low <=? 191) then
    let c := nth (nat_of_ascii low - 128) latin1_map NUL in if ceq c "0"%char then None else Some c
  else None.
(** 148-154 *)
Definition space_char (m : space_mode) : option ascii :=
  match m with Dash => Some "-"%char | NoSpace => None | Underscore => Some "_"%char | Space => Some SP end.
Definition is_sp (sp : option ascii) (c : ascii) : bool := match sp with Some p => ceq c p | None => false end.
(** 236-264: one character and what follows it *)
Definition put (sp : option ascii) (last : bool) (c : ascii) (k : bool -> str) : str :=
  let c := if isupper c then tolower c else c in
  let other := negb (isalnum c) && negb (ceq c "/"%char) && negb (ceq c "."%char) in
  match other, sp with
  | true, None => k last
  | _, _ =>
      let c := match other, sp with true, Some p => p | _, _ => c end in
      if is_sp sp c then if last then k last else c :: k true
      else c :: k false
  end.
(** 157-264.  [s] is the page from the current byte on, [last] is last_was_space_char *)
Fixpoint san (sp : option ascii) (last : bool) (s : str) : str :=
  match s with
  | [] => []
  | c :: r =>
      if ceq c SQ || ceq c DQ || ceq c BT then san sp last r
      else
        match r with
        | [] => put sp last c (fun l => san sp l r)
        | d :: r2 =>
            if ceq c (byte 194) && ceq d (byte 180) then san sp last r2
            else if ceq c (byte 226) && match r2 with
                | e :: _ => ceq d (byte 128) && (ceq e (byte 152) || ceq e (byte 153) || ceq e (byte 156) || ceq e (byte 157))
                | [] => false end
              then match r2 with _ :: r3 => san sp last r3 | [] => [] end
            else if ceq c (byte 204) && (128 <=? nat_of_ascii d) && (nat_of_ascii d <=? 191) then san sp last r2
            else if ceq c (byte 205) && (128 <=? nat_of_ascii d) && (nat_of_ascii d <=? 175) then san sp last r2
            else if ceq c (byte 195) then
              if ceq d (byte 134) || ceq d (byte 166) then "a"%char :: "e"%char :: san sp false r2
              else if ceq d (byte 159) then "s"%char :: "s"%char :: san sp false r2
              else
                match latin1_to_ascii d with
                | Some b => put sp last b (fun l => san sp l r2)
                | None => match sp with Some p => if last then san sp last r2 else p :: san sp true r2 | None => san sp last r2 end
                end
            else put sp last c (fun l => san sp l r)
        end
  end.
(** 266-269 *)
Definition trim_end (sp : option ascii) (s : str) : str :=
  match rev s with c :: _ => if is_sp sp c then removelast s else s | [] => s end.
(** 146-293: the part of the address for the page *)
Definition page_part (cfg : config) (page : str) : str :=
  if sanitize cfg then trim_end (space_char (mode_of cfg)) (san (space_char (mode_of cfg)) true page)
  else flat_map (fun c => if ceq c SP then match space_char (mode_of cfg) with Some p => [p] | None => [] end else [c]) page.
(** 296-304 *)
Definition ext_part (cfg : config) : str :=
  match extension cfg with
  | Some ((c :: _) as e) => (if ceq c "."%char then [] else B ".") ++ e
  | _ => []
  end.
(** 124-314 *)
Definition page_to_url (cfg : config) (page : str) (section : option str) : str :=
  base_path cfg ++ page_part cfg page ++ ext_part cfg ++ match section with Some s => B "#" ++ s | None => [] end.
(** 131-134: the bytes that are allocated *)
Definition url_len (cfg : config) (page : str) (section : option str) : nat :=
  length (base_path cfg) + length page + match section with Some s => length s + 1 | None => 0 end +
  match extension cfg with Some e => length e | None => 0 end + 10.

Definition text_node (s : str) : node := Node (Text s) [].
Definition text_if (s : str) : list node := match s with [] => [] | _ => [text_node s] end.
(** 552-564 *)
Definition link_node (cfg : config) (content : str) : node :=
  let '(page, display, section) := parse_wiki content in
  Node (Link (Some (page_to_url cfg page section)) None) [text_node (match display with Some d => d | None => page end)].
(** 431-611: the nodes for one text, from the cursor on; None: not enough fuel *)
Fixpoint rebuild (cfg : config) (fuel : nat) (s : str) : option (list node) :=
  match fuel with
  | 0 => None
  | S fuel =>
      match strstr (B "[[") s with
      | None => Some (text_if s)
      | Some a =>
          let inside := skipn (a + 2) s in
          match strstr (B "]]") inside with
          | None => Some (text_if (firstn a s) ++ [text_node (skipn a s)])
          | Some k =>
              match rebuild cfg fuel (skipn (k + 2) inside) with
              | None => None
              | Some l => Some (text_if (firstn a s) ++ (if k =? 0 then text_node (B "[[]]") else link_node cfg (firstn k inside)) :: l)
              end
          end
      end
  end.
Definition text_nodes (cfg : config) (s : str) : list node :=
  match rebuild cfg (S (length s)) s with Some l => l | None => [] end.
(** 404-617 *)
Fixpoint process (cfg : config) (n : node) : list node :=
  match n with
  | Node k ch =>
      let below := [Node k ((fix all (l : list node) := match l with [] => [] | c :: l => process cfg c ++ all l end) ch)] in
      match k with
      | Text s => match strstr (B "[[") s with Some _ => text_nodes cfg s | None => below end
      | _ => below
      end
  end.
