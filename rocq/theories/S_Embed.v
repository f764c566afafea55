(** What is said about images in the page, without the model. *)
From Verif Require Import Base S_Encode.

Definition within (m s : str) : Prop := exists a b, s = a ++ m ++ b.
Definition quote (q : ascii) : Prop := q = DQ \/ q = SQ.
(** A tag with a source; [x] and [y] are the rest of the tag. *)
Definition img (x : str) (q : ascii) (u y : str) : str := B "<img" ++ x ++ B "src=" ++ [q] ++ u ++ [q] ++ y ++ B ">".
(** The first source in the tag *)
Definition first_src (x u : str) (q : ascii) (y : str) : Prop :=
  quote q /\ ~ In ">"%char (x ++ u ++ y) /\ ~ In q u /\ (forall p, quote p -> ~ within (B "src=" ++ [p]) (B "<img" ++ x)) /\ (q = SQ -> ~ within (B "src=" ++ [DQ]) (img x q u y)).

Definition remote (u : str) : Prop := exists p r, In p [B "data:"; B "http://"; B "https://"; B "//"] /\ u = p ++ r.
(** Where the file of an address is *)
Definition place (base : option str) (u p : str) : Prop :=
  (exists r, u = "/"%char :: r) /\ p = u \/ (~ exists r, u = "/"%char :: r) /\ ((base = None \/ base = Some []) /\ p = u \/ exists d, base = Some d /\ d <> [] /\ p = d ++ "/"%char :: u).

(** A data URL: a type, and bytes that a decoder turns into the bytes of the file, perhaps with zeros behind them *)
Definition Data (p c d : str) : Prop := exists t e k, d = B "data:" ++ t ++ B ";base64," ++ e /\ b64_decode e = Some (c ++ repeat NUL k) /\ length e = (length c + 2) / 3 * 4.
Definition found (fs : str -> option str) (base : option str) (u d : str) : Prop :=
  ~ remote u /\ exists p c, place base u p /\ fs p = Some c /\ Data p c d.

(** The result differs from the page only in the sources of some images. *)
Inductive Embedded (fs : str -> option str) (base : option str) : str -> str -> Prop :=
| embedded_end : Embedded fs base [] []
| embedded_byte c s o : Embedded fs base s o -> Embedded fs base (c :: s) (c :: o)
| embedded_img x q u y d s o : quote q -> ~ In ">"%char (x ++ u ++ y) -> found fs base u d -> Embedded fs base s o -> Embedded fs base (img x q u y ++ s) (img x DQ d y ++ o).

(** Extensions and media types *)
Definition types : list (str * str) :=
  [(B "jpg", B "image/jpeg"); (B "jpe", B "image/jpeg"); (B "jpeg", B "image/jpeg"); (B "png", B "image/png"); (B "gif", B "image/gif"); (B "webp", B "image/webp"); (B "svg", B "image/svg+xml"); (B "bmp", B "image/bmp"); (B "ico", B "image/x-icon")].
(** A file that can be embedded *)
Definition usable (c : str) : Prop := c <> [] /\ (N.of_nat (length c) <= 10 * 1024 * 1024)%N.
