(** What is said about addresses, without the model. *)
From Verif Require Import Base S_Encode.

(** What a percent-encoded address denotes; a percent sign without two hexadecimal digits stands for itself. *)
Fixpoint pct_decode (s : str) : str :=
  match s with
  | [] => []
  | c :: r =>
      match r with
      | a :: b :: t => if ceq c "%" then match hex_value a, hex_value b with Some x, Some y => ascii_of_N (x * 16 + y) :: pct_decode t | _, _ => c :: pct_decode r end else c :: pct_decode r
      | _ => c :: pct_decode r
      end
  end.
(** The bytes of an address (RFC 3986, section 2) *)
Definition url_bytes : str := B "ABCDEFGHIJKLMNOPQRSTUVWXYZabcdefghijklmnopqrstuvwxyz0123456789-._~:/?#[]@!$&'()*+,;=%".

Definition within (m s : str) : Prop := exists a b, s = a ++ m ++ b.
(** No query and no fragment begins in [s]. *)
Definition inner (s : str) : Prop := ~ In "?"%char s /\ ~ In "#"%char s.
(** Nothing, a query or a fragment *)
Definition tail (t : str) : Prop := t = [] \/ exists r, t = "?"%char :: r \/ t = "#"%char :: r.
(** An extension [e] *)
Definition extension (e : str) : Prop := inner e /\ ~ In "."%char e.

Definition videos : list str := [B "mp4"; B "mov"; B "webm"; B "ogg"; B "ogv"; B "m4v"].
