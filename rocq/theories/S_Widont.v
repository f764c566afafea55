(** Non-breaking spaces in headings.  Nothing of the model is used. *)
From Verif Require Import Base S_Pass.

(** ** The last words of a text, by positions *)
Definition white_at (t : str) (k : nat) : Prop := exists c, nth_error t k = Some c /\ white c.
(** [m]: behind the last byte that is no white space *)
Definition text_end (t : str) (m : nat) : Prop := m <= length t /\ (forall k, m <= k < length t -> white_at t k) /\ (m = 0 \/ ~ white_at t (m - 1)).
Definition word_start (t : str) (c : nat) : Prop := c = 0 \/ white_at t (c - 1).
(** More than ten bytes, in two words at least, or behind the only space. *)
Definition enough (t : str) (m c : nat) : Prop := 10 < m - c /\ ((exists k, c <= k < m /\ white_at t k) \/ (forall k, k < c - 1 -> ~ white_at t k)).
(** The last words start at [c]: at the last place where it is enough, else at the start of the text. *)
Definition Kept (t : str) (m c : nat) : Prop := text_end t m /\ c < m /\ word_start t c /\ (c = 0 \/ enough t m c) /\ (forall c', c < c' < m -> word_start t c' -> ~ enough t m c').

(** ** HTML *)
(** HTML that ends outside a tag, and its text *)
Inductive Text : str -> str -> Prop :=
| Te_end : Text [] []
| Te_text c s h : c <> "<"%char -> c <> ">"%char -> Text s h -> Text (c :: s) (c :: h)
| Te_stray s h : Text s h -> Text (B ">" ++ s) h
| Te_tag x s h : ~ In ">"%char x -> Text s h -> Text (B "<" ++ x ++ B ">" ++ s) h.
(** The number of bytes of HTML up to and with [c] bytes of text *)
Definition Offset (body : str) (c n : nat) : Prop :=
  (c = 0 /\ n = 0) \/ exists a v d b, body = a ++ [d] ++ b /\ Text a v /\ d <> "<"%char /\ d <> ">"%char /\ c = length v + 1 /\ n = length a + 1.
(** From the [n]th byte of text on, spaces and tabs become non-breaking spaces. *)
Inductive Joined (n : nat) : nat -> str -> str -> Prop :=
| J_end k : Joined n k [] []
| J_space k c s h : n <= k -> c = SP \/ c = TAB -> Joined n (k + 1) s h -> Joined n k (c :: s) (B "&nbsp;" ++ h)
| J_text k c s h : c <> "<"%char -> c <> ">"%char -> ~ (n <= k /\ (c = SP \/ c = TAB)) -> Joined n (k + 1) s h -> Joined n k (c :: s) (c :: h)
| J_stray k s h : Joined n k s h -> Joined n k (B ">" ++ s) (B ">" ++ h)
| J_tag k x s h : ~ In ">"%char x -> Joined n k s h -> Joined n k (B "<" ++ x ++ B ">" ++ s) (B "<" ++ x ++ B ">" ++ h)
| J_open k x : ~ In ">"%char x -> Joined n k (B "<" ++ x) (B "<" ++ x).
Definition Body (body h : str) : Prop := exists v, Shown body v /\
  ((Forall white v /\ h = body) \/ exists m c n, Kept v m c /\ Offset body c n /\ Joined n 0 body h).
Definition heading_at (d : ascii) (s : str) : Prop := In d (B "123456") /\ exists r, s = B "<h" ++ [d] ++ r.
Definition close (d : ascii) : str := B "</h" ++ [d] ++ B ">".
Inductive Widont : str -> str -> Prop :=
| W_end : Widont [] []
| W_byte c s h : (forall d, ~ heading_at d (c :: s)) -> Widont s h -> Widont (c :: s) (c :: h)
| W_open d s : heading_at d s -> ~ In ">"%char s -> Widont s s
| W_unclosed d a s : heading_at d (a ++ B ">" ++ s) -> ~ In ">"%char a -> ~ has (close d) s -> Widont (a ++ B ">" ++ s) (a ++ B ">" ++ s)
| W_heading d a body s hb h : heading_at d (a ++ B ">" ++ body ++ close d ++ s) -> ~ In ">"%char a -> ~ has (close d) body -> Body body hb -> Widont s h ->
    Widont (a ++ B ">" ++ body ++ close d ++ s) (a ++ B ">" ++ hb ++ close d ++ h).
(** All spaces and tabs as non-breaking spaces *)
Definition unbroken (x : str) : str := flat_map (fun c => if ascii_dec c SP then B "&nbsp;" else if ascii_dec c TAB then B "&nbsp;" else [c]) x.
Definition no_heading (html : str) : Prop := forall a b d, html = a ++ b -> ~ heading_at d b.
