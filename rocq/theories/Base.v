(** Common vocabulary of the model: bytes, C character classes, C string
    searching, and the bounded output buffer used by the text filters.

    Bytes are [ascii] (eight bits).  A C string is the list of the bytes that
    precede its terminating NUL; a read pointer is the suffix it points at. *)
From Coq Require Export String Ascii NArith ZArith Lia Bool Arith List.
From Coq Require Export ZifyBool ZifyN ZifyNat.
Export ListNotations.
Open Scope list_scope.
Open Scope nat_scope.

Notation str := (list ascii) (only parsing).

(** String literals as byte lists. *)
Definition B (s : string) : str := list_ascii_of_string s.
Arguments B s%string.

(** Numeric value of a byte. *)
Definition code (c : ascii) : N := N_of_ascii c.
Definition NUL : ascii := "000"%char.
Definition TAB : ascii := "009"%char.
Definition NL  : ascii := "010"%char.
Definition CR  : ascii := "013"%char.
Definition SP  : ascii := "032"%char.
Definition DQ  : ascii := "034"%char.
Definition SQ  : ascii := "039"%char.
Definition BS  : ascii := "092"%char.
Definition BT  : ascii := "096"%char.

Definition ceq (a b : ascii) : bool := Ascii.eqb a b.
Definition between (lo hi : N) (c : ascii) : bool :=
  (N.leb lo (code c) && N.leb (code c) hi)%bool.

(** <ctype.h> in the "C" locale (the program never calls setlocale). *)
Definition isspace (c : ascii) : bool := between 9 13 c || ceq c SP.
Definition isdigit (c : ascii) : bool := between 48 57 c.
Definition isupper (c : ascii) : bool := between 65 90 c.
Definition islower (c : ascii) : bool := between 97 122 c.
Definition isalpha (c : ascii) : bool := isupper c || islower c.
Definition isalnum (c : ascii) : bool := isalpha c || isdigit c.
Definition tolower (c : ascii) : ascii :=
  if isupper c then ascii_of_N (code c + 32) else c.
Definition toupper (c : ascii) : ascii :=
  if islower c then ascii_of_N (code c - 32) else c.

(** No byte of a C string is NUL. *)
Definition nul_free (s : str) : Prop := ~ In NUL s.

(** [p[k]] for a pointer [p] into a C string.  Legal in C iff
    [k <= length p]; index [length p] is the terminator. *)
Definition at_ (s : str) (k : nat) : ascii := nth k s NUL.

(** [strncmp (s, lit, strlen lit) == 0] for a NUL-free literal. *)
Fixpoint starts (lit s : str) : bool :=
  match lit, s with
  | [], _ => true
  | _, [] => false
  | a :: lit', c :: s' => ceq a c && starts lit' s'
  end.

(** [strchr (s, c)] for [c <> NUL], as an offset. *)
Fixpoint strchr (c : ascii) (s : str) : option nat :=
  match s with
  | [] => None
  | d :: s' => if ceq c d then Some 0 else option_map S (strchr c s')
  end.

(** [strstr (s, lit)] as an offset. *)
Fixpoint strstr (lit s : str) : option nat :=
  if starts lit s then Some 0
  else match s with
       | [] => None
       | _ :: s' => option_map S (strstr lit s')
       end.

(** [strcmp] equality. *)
Fixpoint seq_ (a b : str) : bool :=
  match a, b with
  | [], [] => true
  | x :: a', y :: b' => ceq x y && seq_ a' b'
  | _, _ => false
  end.

(** Longest prefix satisfying a test, and what follows. *)
Fixpoint span (f : ascii -> bool) (s : str) : str * str :=
  match s with
  | [] => ([], [])
  | c :: s' => if f c then let (a, b) := span f s' in (c :: a, b) else ([], s)
  end.

(** A bounded output buffer: [w_cap] bytes were allocated, [w_out] is what the
    write pointer has passed, [w_rem] is the function's own counter of free
    bytes, [w_oob] becomes (and stays) true when a byte is stored at an index
    that is not below the capacity. *)
Record wr := Wr { w_cap : nat; w_out : str; w_rem : nat; w_oob : bool }.

Definition w_new (cap rem : nat) : wr := Wr cap [] rem false.

(** Store the bytes [s] at the write pointer and advance, no check at all. *)
Definition w_store (s : str) (w : wr) : wr :=
  Wr (w_cap w) (w_out w ++ s) (w_rem w)
     (w_oob w || match s with
                 | [] => false
                 | _ => Nat.ltb (w_cap w) (length (w_out w) + length s)
                 end).

Definition w_set_rem (r : nat) (w : wr) : wr :=
  Wr (w_cap w) (w_out w) r (w_oob w).

(** [if (remaining > 0) { *write++ = c; remaining--; }] *)
Definition w_put (c : ascii) (w : wr) : wr :=
  if Nat.ltb 0 (w_rem w)
  then w_set_rem (w_rem w - 1) (w_store [c] w) else w.

(** [if (len < remaining) { memcpy(write, s, len); write += len; remaining -= len; }] *)
Definition w_puts_lt (s : str) (w : wr) : wr :=
  if Nat.ltb (length s) (w_rem w)
  then w_set_rem (w_rem w - length s) (w_store s w) else w.

(** [if (len <= remaining) { ... }] *)
Definition w_puts_le (s : str) (w : wr) : wr :=
  if Nat.leb (length s) (w_rem w)
  then w_set_rem (w_rem w - length s) (w_store s w) else w.

(** [*write = '\0';] The write pointer does not move. *)
Definition w_term (w : wr) : wr :=
  Wr (w_cap w) (w_out w) (w_rem w)
     (w_oob w || Nat.leb (w_cap w) (length (w_out w))).

(** [lia] without the boolean hypotheses, which only slow it down. *)
Ltac nlia := repeat match goal with H : @eq bool _ _ |- _ => clear H end; lia.
