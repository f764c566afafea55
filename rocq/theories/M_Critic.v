(** Model of src/extensions/critic.c (the text pre-processor). *)
From Verif Require Import Base.

(** 16-23 *)
Inductive critic_type := CAdd | CDel | CSub | CHighlight | CComment.

(** critic.h: CRITIC_ACCEPT, CRITIC_REJECT, CRITIC_MARKUP *)
Inductive critic_mode := MAccept | MReject | MMarkup.

(** Result of a successful scan: type, [*content] with its length, [old_text]
    (NULL as [None]) with its length, and [*consumed]. *)
Record critic_hit := Hit {
  h_type : critic_type; h_content : str; h_old : option str; h_consumed : nat }.

(** 36-53: the marker after the brace and the closing marker to look for. *)
Definition critic_open (input : str) : option (critic_type * str) :=
  let c1 := at_ input 1 in let c2 := at_ input 2 in
  if ceq c1 "+" && ceq c2 "+" then Some (CAdd, B "++}")
  else if ceq c1 "-" && ceq c2 "-" then Some (CDel, B "--}")
  else if ceq c1 "~" && ceq c2 "~" then Some (CSub, B "~~}")
  else if ceq c1 "=" && ceq c2 "=" then Some (CHighlight, B "==}")
  else if ceq c1 ">" && ceq c2 ">" then Some (CComment, B "<<}")
  else None.

(** 25-76, [scan_critic_markup].  [None] is CRITIC_NONE.  Simplification: the
    C code keeps lengths in [int]; here they are unbounded. *)
Definition scan_critic (input : str) : option critic_hit :=
  if length input <? 6 then None                                     (* 28 *)
  else if negb (ceq (at_ input 0) "{") then None                     (* 30 *)
  else match critic_open input with
       | None => None
       | Some (type, close) =>
           let content := skipn 3 input in                           (* 55 *)
           match strstr close content with                           (* 58 *)
           | None => None
           | Some closer =>
               let consumed := closer + 3 + 3 in                     (* 62 *)
               let whole := Hit type (firstn closer content) None consumed in
               Some match type with
               | CSub =>                                             (* 65-73 *)
                   match strstr (B "~>") content with
                   | Some sep =>
                       if sep <? closer
                       then Hit type (firstn (closer - (sep + 2)) (skipn (sep + 2) content))
                                     (Some (firstn sep content)) consumed
                       else whole
                   | None => whole
                   end
               | _ => whole
               end
           end
       end.

(** 81-171, [critic_to_html].  The scratch buffer of 84 is always larger than
    the text (at most 64 bytes are added to the two pieces), so [snprintf]
    never truncates. *)
Definition critic_to_html (h : critic_hit) (mode : critic_mode) : str :=
  let content := h_content h in
  match mode with
  | MAccept =>
      match h_type h with
      | CAdd | CSub | CHighlight => content
      | CDel | CComment => []
      end
  | MReject =>
      match h_type h with
      | CSub => match h_old h with
                | Some old => if 0 <? length old then old else []
                | None => []
                end
      | CDel | CHighlight => content
      | CAdd | CComment => []
      end
  | MMarkup =>
      match h_type h with
      | CAdd => B "<ins class=""critic"">" ++ content ++ B "</ins>"
      | CDel => B "<del class=""critic"">" ++ content ++ B "</del>"
      | CSub =>
          let plain := B "<ins class=""critic"">" ++ content ++ B "</ins>" in
          match h_old h with
          | Some old =>
              if 0 <? length old
              then B "<del class=""critic break"">" ++ old ++ B "</del>"
                     ++ B "<ins class=""critic break"">" ++ content ++ B "</ins>"
              else plain
          | None => plain
          end
      | CHighlight => B "<mark class=""critic"">" ++ content ++ B "</mark>"
      | CComment => B "<span class=""critic comment"">" ++ content ++ B "</span>"
      end
  end.

(** 289-324, the copy loop; [None] only if the fuel runs out. *)
Fixpoint critic_loop (fuel : nat) (mode : critic_mode) (w : wr) (p : str) : option wr :=
  match fuel with
  | O => None
  | S fuel =>
    match p with
    | [] => Some w
    | c :: p1 =>
        match (if ceq c "{" then scan_critic p else None) with
        | Some h =>                                                   (* 301-315 *)
            critic_loop fuel mode (w_puts_lt (critic_to_html h mode) w)
                        (skipn (h_consumed h) p)
        | None => critic_loop fuel mode (w_put c w) p1                (* 319-323 *)
        end
    end
  end.

(** 277-328, [apex_process_critic_markup_text]: capacity [2 * len] (281) and an
    unconditional terminator (326).  [malloc] succeeds (also for size 0, where
    it yields a zero-sized block). *)
Definition process_critic (mode : critic_mode) (text : str) : option wr :=
  let cap := length text * 2 in
  option_map w_term (critic_loop (S (length text)) mode (w_new cap cap) text).
