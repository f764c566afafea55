(** C290-C294: Liquid tags put aside before parsing and put back on the page (src/apex.c 1022-1207, 1634-1765). *)
From Verif Require Import Base BaseL Dec L_Pass M_Relax M_Spans M_Liquid S_Liquid L_Liquid L_Alpha.

(** What comes back when nothing happens in between (4935-4938, 5195-5200) *)
Definition returned (t : str) : option str := match protect t with Same => Some t | Hidden s tags => restore s tags | Bad => None end.

Ltac noin := let I := fresh in intro I; repeat (destruct I as [I|I]; [discriminate I|]); destruct I.
Lemma lacks m s : m <> [] -> strstr m s = None -> ~ within m s.
Proof. intros Z E (a & b & Q). exact (strstr_none _ _ E a b Q). Qed.
Lemma lacks_name s : strstr prefix s = None -> nameless s.
Proof. intros E d _ (a & b & Q). apply (strstr_none _ _ E a (d :: b)). rewrite Q. unfold prefix. now rewrite <- !app_assoc. Qed.
Ltac atag x := exists (B x); split; [reflexivity|apply lacks; [discriminate|reflexivity]].
Lemma no_open s : ~ In "{"%char s -> untagged s.
Proof. intros N a x b ->. apply N. apply in_or_app. right. cbn. auto. Qed.

(** C290. Neither pass writes behind its buffer, for any text, any page and any tags. *)
Theorem C290_safe : (forall t, protect t <> Bad) /\ forall html tags, restore html tags <> None.
Proof.
  split.
  - intro t. destruct (tagged_total t) as (l & r & T & ->). rewrite (protect_exact l r T). destruct l; discriminate.
  - intros html tags. destruct (page_total tags html) as (o & P). rewrite (restore_exact tags html o P). discriminate.
Qed.
Print Assumptions C290_safe.

Example C290_case : restore (B "<p>APEX_LIQUID_TAG_x APEX_LIQUID_TAG_0</p>") [B "{% a %}"] = Some (B "<p>APEX_LIQUID_TAG_x {% a %}</p>").
Proof. vm_compute. reflexivity. Qed.

(** C291. Every text can be divided into tags and the texts between them; each tag is kept as it is written, the parser is given names for them, and no tag is left in what it is given. *)
Theorem C291_hidden : (forall t, exists l r, Tagged l r /\ t = tagged l r) /\ forall l r, Tagged l r ->
  protect (tagged l r) = match l with [] => Same | _ => Hidden (covered 0 l r) (map snd l) end /\ untagged (covered 0 l r).
Proof. split; [exact tagged_total|]. intros l r T. split; [exact (protect_exact l r T)|exact (covered_untagged l r T 0)]. Qed.
Print Assumptions C291_hidden.

Example C291_case : protect (B "a {% if x %}b{% endif %} {% c") = Hidden (B "a APEX_LIQUID_TAG_0bAPEX_LIQUID_TAG_1 {% c") [B "{% if x %}"; B "{% endif %}"]
  /\ Tagged [(B "a ", B "{% if x %}"); (B "b", B "{% endif %}")] (B " {% c").
Proof.
  split; [vm_compute; reflexivity|]. split.
  - constructor; [split; [apply lacks; [discriminate|reflexivity]|atag " if x "%string]|]. constructor; [split; [apply lacks; [discriminate|reflexivity]|atag " endif "%string]|constructor].
  - intros a x b Q. assert (N : ~ In "}"%char (B " {% c")) by noin. apply N. rewrite Q. apply in_or_app. right. apply in_or_app. right. apply in_or_app. right. cbn. auto.
Qed.

(** C292. A text comes back as it was: false for every tag with a digit behind it, and a tag can be replaced by another one. *)
Theorem C292_refuted : (forall g ds, tag g -> number ds -> length ds <= 18 -> returned (g ++ ds) = Some (if (value 0 ds =? 0)%Z then g else name 0 ++ ds) /\ (if (value 0 ds =? 0)%Z then g else name 0 ++ ds) <> g ++ ds)
  /\ (forall g h, tag g -> tag h -> returned (g ++ B "1" ++ h) = Some (h ++ h)).
Proof.
  assert (Nd : forall ds, Forall digit ds -> ~ In "{"%char ds) by (intros ds D I; rewrite Forall_forall in D; apply D in I; repeat (destruct I as [I|I]; [discriminate I|]); destruct I).
  split.
  - intros g ds G [Z D] L. assert (T : Tagged [([], g)] ds) by (split; [constructor; [split; [intros ([|? ?] & b & Q); discriminate Q|exact G]|constructor]|apply no_open, Nd, D]).
    assert (E : g ++ ds = tagged [([], g)] ds) by (unfold tagged; cbn [map concat fst snd app]; now rewrite app_nil_r). unfold returned. rewrite E, (protect_exact _ _ T). cbn [covered map snd app].
    assert (V : value 0 (B "0" ++ ds) = value 0 ds) by reflexivity. assert (Bd : (0 <= value 0 ds < 10 ^ 18)%Z).
    { rewrite value_fold. assert (D2 : Forall (fun c => isdigit c = true) ds) by (rewrite Forall_forall in *; intros x I; now apply digit_bool, D). pose proof (digits_short_bound ds D2) as H. unfold digits_value in H. assert (10 ^ Z.of_nat (length ds) <= 10 ^ 18)%Z by (apply Z.pow_le_mono_r; lia). lia. }
    assert (Nu : number (B "0" ++ ds)) by (split; [discriminate|constructor; [cbn; auto|exact D]]).
    assert (Sm : (value 0 (B "0" ++ ds) mod 2 ^ 64 = value 0 ds)%Z) by (rewrite V; apply Z.mod_small; lia). rewrite <- E. destruct (Z.eqb_spec (value 0 ds) 0) as [V0|V0].
    + split; [|intro Q; rewrite <- (app_nil_r g) in Q at 1; apply app_inv_head in Q; congruence]. rewrite <- (app_nil_r g) at 2. apply restore_exact. change (name 0 ++ ds) with (B "APEX_LIQUID_TAG_" ++ (B "0" ++ ds)). rewrite <- (app_nil_r (B "0" ++ ds)). apply page_tag; [exact Nu|exact I|rewrite Sm, V0; reflexivity|constructor].
    + split; [|destruct G as (x & -> & _); discriminate]. apply restore_exact. change (name 0 ++ ds) with (B "APEX_LIQUID_TAG_" ++ (B "0" ++ ds)). rewrite <- (app_nil_r (B "0" ++ ds)). apply page_other; [exact Nu|exact I|rewrite Sm; apply nth_error_None; cbn; lia|constructor].
  - intros g h G H. assert (T : Tagged [([], g); (B "1", h)] []).
    { split; [|apply no_open; intros []]. constructor; [split; [intros ([|? ?] & b & Q); discriminate Q|exact G]|]. constructor; [split; [apply lacks; [discriminate|reflexivity]|exact H]|constructor]. }
    assert (E : g ++ B "1" ++ h = tagged [([], g); (B "1", h)] []) by (unfold tagged; cbn [map concat fst snd app]; now rewrite !app_nil_r). unfold returned. rewrite E, (protect_exact _ _ T). cbn [covered map snd app]. rewrite app_nil_r.
    apply restore_exact. change (name 0 ++ B "1" ++ name 1) with (B "APEX_LIQUID_TAG_" ++ B "01" ++ name 1). apply page_tag; [split; [discriminate|repeat (constructor; [cbn; auto|]); constructor]|noin|reflexivity|].
    rewrite <- (app_nil_r h) at 2. change (name 1) with (B "APEX_LIQUID_TAG_" ++ B "1" ++ []). apply page_tag; [split; [discriminate|repeat (constructor; [cbn; auto|]); constructor]|exact I|reflexivity|constructor].
Qed.
Print Assumptions C292_refuted.
Example C292_refuted_case : returned (B "{% if a %}1{% endif %}") = Some (B "{% endif %}{% endif %}") /\ returned (B "{% x %}5") = Some (B "APEX_LIQUID_TAG_05").
Proof. split; vm_compute; reflexivity. Qed.

(** True when no text behind a tag begins with a digit and no name of a tag stands in the text. *)
Theorem C292_partial l r : Tagged l r -> spaced l r -> Forall (fun p => nameless (fst p)) l -> nameless r -> (Z.of_nat (length l) <= 2 ^ 64)%Z -> returned (tagged l r) = Some (tagged l r).
Proof.
  intros T S F N L. unfold returned. rewrite (protect_exact l r T). destruct l as [|p l]; [reflexivity|]. cbn beta match. rewrite covered_named. erewrite restore_exact; [reflexivity|]. rewrite <- (filled_tagged (p :: l) r []) . cbn [app length]. apply page_named.
  - rewrite map_length. exact L.
  - rewrite Forall_forall in *. intros [x k] I. cbn [fst snd]. pose proof (in_combine_l _ _ _ _ I) as I1. pose proof (in_combine_r _ _ _ _ I) as I2. apply in_map_iff in I1 as (q & <- & I1). apply in_seq in I2. rewrite map_length. split; [exact (F q I1)|cbn [length] in *; lia].
  - exact N.
  - cbn [map length seq combine spaced] in *. clear - S. revert S. generalize 1. induction l as [|[x g] l IH]; intros n S; [exact S|]. cbn [map fst length seq combine clear apart] in *. split; [exact (proj1 S)|]. apply IH. exact (proj2 S).
Qed.
Print Assumptions C292_partial.

Example C292_case : returned (B "1{% if a %}b{% else %}{% endif %} 2 {%") = Some (B "1{% if a %}b{% else %}{% endif %} 2 {%") /\ spaced [(B "1", B "{% if a %}"); (B "b", B "{% else %}"); ([], B "{% endif %}")] (B " 2 {%") /\ nameless (B " 2 {%").
Proof. split; [vm_compute; reflexivity|]. split; [repeat split; noin|apply lacks_name; reflexivity]. Qed.

(** C293. Wherever the parser puts the names, in whatever order and how often, each is replaced by its tag and nothing else on the page changes. Behind a name no digit may stand. *)
Theorem C293_refuted g d : digit d -> d <> "0"%char -> restore (named [([], 0)] [d]) [g] = Some (named [([], 0)] [d]).
Proof.
  intros D Z. apply restore_exact. cbn [named app]. change (name 0 ++ [d]) with (B "APEX_LIQUID_TAG_" ++ B "0" ++ [d]). change (B "0" ++ [d]) with (["0"%char; d] ++ []). apply page_other; [split; [discriminate|constructor; [cbn; auto|constructor; [exact D|constructor]]]|exact I| |constructor].
  apply nth_error_None. cbn [length]. repeat (destruct D as [<-|D]; [try congruence; vm_compute; lia|]). destruct D.
Qed.
Print Assumptions C293_refuted.
Example C293_refuted_case : restore (B "<h1>APEX_LIQUID_TAG_07</h1>") [B "{% a %}"] = Some (B "<h1>APEX_LIQUID_TAG_07</h1>").
Proof. vm_compute. reflexivity. Qed.

Theorem C293_partial tags l r : (Z.of_nat (length tags) <= 2 ^ 64)%Z -> Forall (fun p => nameless (fst p) /\ snd p < length tags) l -> nameless r -> match l with [] => True | _ :: l => clear l r end -> restore (named l r) tags = Some (filled tags l r).
Proof. intros L F N C. apply restore_exact. exact (page_named tags l r L F N C). Qed.
Print Assumptions C293_partial.

Example C293_case : restore (B "<p>APEX_LIQUID_TAG_1</p><i>APEX_LIQUID_TAG_0</i> APEX_LIQUID_TAG_1") [B "{% a %}"; B "{% b %}"] = Some (B "<p>{% b %}</p><i>{% a %}</i> {% b %}")
  /\ B "<p>APEX_LIQUID_TAG_1</p><i>APEX_LIQUID_TAG_0</i> APEX_LIQUID_TAG_1" = named [(B "<p>", 1); (B "</p><i>", 0); (B "</i> ", 1)] [] /\ clear [(B "</p><i>", 0); (B "</i> ", 1)] [].
Proof. split; [vm_compute; reflexivity|]. split; [vm_compute; reflexivity|]. repeat split; noin. Qed.

(** C294. Text that looks like the name of a tag, with a number no tag has, stays: false for numbers of 2^64 and more. *)
Theorem C294_refuted tags a ds b g : nameless a -> nameless b -> no_digit b -> number ds -> (2 ^ 64 <= value 0 ds)%Z -> nth_error tags (Z.to_nat (value 0 ds mod 2 ^ 64)) = Some g ->
  restore (a ++ B "APEX_LIQUID_TAG_" ++ ds ++ b) tags = Some (a ++ g ++ b).
Proof.
  intros Na Nb Db D V E. apply restore_exact. apply page_nameless; [exact Na|intros y z -> Z d q Dd; exact (before_name y z (ds ++ b) Na Z d q Dd)|]. apply page_tag; [exact D|exact Db|exact E|exact (page_rest tags b Nb)].
Qed.
Print Assumptions C294_refuted.
Example C294_refuted_case : restore (B "APEX_LIQUID_TAG_18446744073709551616") [B "{% a %}"] = Some (B "{% a %}") /\ value 0 (B "18446744073709551616") = (2 ^ 64)%Z.
Proof. split; vm_compute; reflexivity. Qed.

Theorem C294_partial tags a ds b : nameless a -> nameless b -> no_digit b -> number ds -> (Z.of_nat (length tags) <= value 0 ds < 2 ^ 64)%Z ->
  restore (a ++ B "APEX_LIQUID_TAG_" ++ ds ++ b) tags = Some (a ++ B "APEX_LIQUID_TAG_" ++ ds ++ b).
Proof.
  intros Na Nb Db D V. apply restore_exact. apply page_nameless; [exact Na|intros y z -> Z d q Dd; exact (before_name y z (ds ++ b) Na Z d q Dd)|]. apply page_other; [exact D|exact Db|apply nth_error_None; rewrite Z.mod_small by lia; lia|exact (page_rest tags b Nb)].
Qed.
Print Assumptions C294_partial.

Example C294_case : restore (B "<p>APEX_LIQUID_TAG_3</p>") [B "{% a %}"] = Some (B "<p>APEX_LIQUID_TAG_3</p>") /\ value 0 (B "3") = 3%Z.
Proof. split; vm_compute; reflexivity. Qed.
