(** Liquid tags put aside before parsing and put back on the page: apex_protect_liquid_tags (src/apex.c 1022-1207) and apex_restore_liquid_tags (1634-1765), called in 4932-4938 and 5193-5200. Allocation never fails; [size_t] overflows only where a number is read (1706-1709). *)
From Verif Require Import Base Dec M_Relax M_Spans.

Definition prefix : str := B "APEX_LIQUID_TAG_".

(** Copy, growing when nothing would be left for one more byte: 1052-1072 and all other copies *)
Definition paste (extra : nat) (x : str) (b : buf) : buf := write x (if remaining b <=? length x then resize (length (b_out b) + length x + extra) b else b).

(** 1046-1189; [n] is [tag_count]. The placeholder has 64 bytes, a [size_t] at most 20 digits (1152-1162). *)
Fixpoint hide (fuel : nat) (s : str) (n : nat) (tags : list str) (b : buf) : list str * buf :=
  match s with
  | [] => (tags, b)
  | _ =>
      match fuel with
      | 0 => (tags, fail b)
      | S fuel =>
          match strstr (B "{%") s with
          | None => (tags, paste 1 s b)
          | Some i =>
              let start := skipn i s in
              let b := paste 64 (firstn i s) b in
              match strstr (B "%}") (skipn 2 start) with
              | None => (tags, paste 1 start b)
              | Some j => hide fuel (skipn (j + 4) start) (S n) (tags ++ [firstn (j + 4) start]) (paste 64 (prefix ++ dec n) b)
              end
          end
      end
  end.

Inductive hidden := Same | Hidden (s : str) (tags : list str) | Bad.

(** 1022-1207. The NUL (1191) needs a byte. *)
Definition protect (text : str) : hidden :=
  let (tags, b) := hide (S (length text)) text 0 [] (Buf (length text + 64) [] false) in
  if b_bad b || (remaining b =? 0) then Bad else match tags with [] => Same | _ => Hidden (b_out b) tags end.

(** 1706-1709 *)
Definition index (ds : str) : Z := fold_left (fun v c => ((v * 10 + digit_val c) mod 2 ^ 64)%Z) ds 0%Z.

(** 1662-1760; reading behind the array of tags is a failure *)
Fixpoint show (fuel : nat) (s : str) (tags : list str) (b : buf) : buf :=
  match s with
  | [] => b
  | _ =>
      match fuel with
      | 0 => fail b
      | S fuel =>
          match strstr prefix s with
          | None => paste 1 s b
          | Some i =>
              let start := skipn i s in
              let b := paste 64 (firstn i s) b in
              let (ds, p) := span isdigit (skipn 16 start) in
              match ds with
              | [] => show fuel (skipn 1 start) tags (if 0 <? remaining b then write (firstn 1 start) b else b)
              | _ =>
                  if (index ds <? Z.of_nat (length tags))%Z then
                    match nth_error tags (Z.to_nat (index ds)) with
                    | Some g => show fuel p tags (paste 64 g b)
                    | None => fail b
                    end
                  else show fuel p tags (paste 64 (prefix ++ ds) b)
              end
          end
      end
  end.

(** 1634-1765, with at least one tag (5195). [None]: something is written behind the buffer. *)
Definition restore (html : str) (tags : list str) : option str :=
  let b := show (S (length html)) html tags (Buf (Nat.max (length html + length tags * 64) (length html + 1)) [] false) in
  if b_bad b || (remaining b =? 0) then None else Some (b_out b).
