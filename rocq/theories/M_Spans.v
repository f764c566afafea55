(** Adjacent bars in table rows: apex_preprocess_table_colspans (src/apex.c 1778-1998) and its call (4438-4475). Allocation never fails; [int] and [size_t] do not overflow. *)
From Verif Require Import Base M_Relax.

(** 1798-1821: the lines with their ends *)
Fixpoint cut_ends (s : str) : list (str * str) :=
  match s with
  | [] => []
  | c :: r =>
      if ceq c NL then ([], [NL]) :: cut_ends r
      else if ceq c CR then
        match r with
        | d :: r' => if ceq d NL then ([], [CR; NL]) :: cut_ends r' else ([], [CR]) :: cut_ends r
        | [] => [([], [CR])]
        end
      else match cut_ends r with [] => [([c], [])] | (l, e) :: t => (c :: l, e) :: t end
  end.

(** 1823-1839 *)
Definition fence (l : str) : bool := let p := snd (span gap l) in starts (B "```") p || starts (B "~~~") p.

Definition resize (cap : nat) (b : buf) : buf := Buf cap (b_out b) (b_bad b).

(** 1871-1882, 1891-1901; [n] is line_end - line_cur *)
Definition room (n : nat) (b : buf) : buf := if remaining b <? 5 then resize ((length (b_out b) + n * 2 + 1) * 2) b else b.

(** 1889-1911 *)
Fixpoint marks (k n : nat) (b : buf) : buf :=
  match k with 0 => b | S k => marks k n (write (B " << |") (room n b)) end.

(** 1917-1934 *)
Definition copy1 (c : ascii) (n : nat) (b : buf) : buf := write [c] (if 0 <? remaining b then b else resize ((length (b_out b) + n + 1) * 2) b).

(** 1852-1935; [fuel] is at least the length of the rest of the line *)
Fixpoint row (fuel : nat) (s : str) (b : buf) : buf :=
  match s with
  | [] => b
  | c :: r =>
      match fuel with
      | 0 => fail b
      | S fuel =>
          let (ps, q) := if ceq c "|" then span (fun c => ceq c "|") r else ([], r) in
          match ps with
          | [] => row fuel r (copy1 c (length s) b)
          | _ => row fuel q (marks (length ps) (length s) (write (B "|") (room (length s) b)))
          end
      end
  end.

(** 1936-1953 *)
Definition plain (l : str) (b : buf) : buf := write l (if remaining b <? length l then resize ((length (b_out b) + length l + 1) * 2) b else b).

(** 1955-1992 *)
Definition eol (e : str) (b : buf) : buf := match e with [] => b | _ => write e (if 2 <? remaining b then b else resize ((length (b_out b) + 10) * 2) b) end.

(** 1796-1993 *)
Definition line (s : bool * buf) (p : str * str) : bool * buf :=
  let (l, e) := p in
  let code := xorb (fst s) (fence l) in
  (code, eol e (if negb code && existsb (fun c => ceq c "|") l then row (length l) l (snd s) else plain l (snd s))).

(** The NUL (1995) needs a byte. *)
Definition colspans (text : str) : option str :=
  let b := snd (fold_left line (cut_ends text) (false, Buf (length text * 2 + 1) [] false)) in
  if b_bad b || (remaining b =? 0) then None else Some (b_out b).

(** 4438-4475; [None]: something is written beyond the buffer *)
Definition spanned (text : str) : option str := colspans (closed text).
