(** Property theorems C01, C02, C03 (src/apex.c encoders). *)
From Verif Require Import Base M_Encode S_Encode L_Encode L_Obf.

(** C01, full statement: for every non-empty file content [data], decoding the
    embedded payload gives [data].  The code violates it: *)
Theorem C01_embedded_image_round_trip_refuted :
  exists data e, base64_encode data = Some e /\ b64_decode e <> Some data.
Proof. exact roundtrip_refuted. Qed.
Print Assumptions C01_embedded_image_round_trip_refuted.

(** C01, the exact set of contents for which it does hold. *)
Theorem C01_embedded_image_round_trip_iff :
  forall data, data <> [] ->
  (length data < 3 \/ length data mod 3 = 0 <->
   exists e, base64_encode data = Some e /\ b64_decode e = Some data).
Proof. exact roundtrip_iff. Qed.
Print Assumptions C01_embedded_image_round_trip_iff.

(** C01, what is recovered in the remaining cases: the data and at least one
    spurious zero byte. *)
Theorem C01_embedded_image_spurious_bytes :
  forall data, 3 <= length data -> length data mod 3 <> 0 ->
  exists e k, base64_encode data = Some e /\ 0 < k /\
    b64_decode e = Some (data ++ repeat NUL k).
Proof. exact roundtrip_bad. Qed.
Print Assumptions C01_embedded_image_spurious_bytes.

Example C01_case_ok :
  base64_encode (B "Apex!?") = Some (B "QXBleCE/") /\ b64_decode (B "QXBleCE/") = Some (B "Apex!?").
Proof. vm_compute. auto. Qed.
Example C01_case_short : base64_encode (B "A") = Some (B "QQ==").
Proof. vm_compute. auto. Qed.
Example C01_case_bad : 3 <= length (B "Apex") /\ length (B "Apex") mod 3 <> 0.
Proof. cbn. lia. Qed.

(** C02: exact length, inside the allocation (NUL included), alphabet, and the
    data is always a prefix of what is decoded. *)
Theorem C02_base64_payload_shape :
  forall data e, base64_encode data = Some e ->
  length e = (length data + 2) / 3 * 4 /\
  length e + 1 <= b64_capacity (length data) /\
  (forall c, In c e -> isalnum c || ceq c "+" || ceq c "/" || ceq c "=" = true) /\
  exists k, b64_decode e = Some (data ++ repeat NUL k).
Proof. exact encode_shape. Qed.
Print Assumptions C02_base64_payload_shape.

Example C02_case : exists e, base64_encode (B "hello") = Some e /\ length e = 8.
Proof. eexists. split; [vm_compute; reflexivity|reflexivity]. Qed.

(** C03: the encoded form consists of references only ([resolve_refs] accepts
    nothing else), resolves to the source and fits the buffer. *)
Theorem C03_hex_entities_round_trip :
  forall text, text <> [] ->
  exists e, encode_hex_entities text = Some e /\ resolve_refs e = Some text /\
    length e + 1 <= length text * 6 + 1.
Proof. exact encode_hex_round. Qed.
Print Assumptions C03_hex_entities_round_trip.

Example C03_case : encode_hex_entities (B "a@b") = Some (B "&#x61;&#x40;&#x62;").
Proof. vm_compute. reflexivity. Qed.

(** C33: obfuscating the links of a document without ampersands loses nothing:
    a reader that resolves references sees the original document.  The guard on
    the last byte is exactly what excludes the over-run below. *)
Theorem C33_obfuscation_lossless_partial :
  forall html, ~ In "&"%char html -> (forall a, html <> a ++ [">"%char]) ->
  exists out, obfuscate_email_links html = ObfOk out false /\
              resolve_mixed out = html.
Proof. exact obf_lossless. Qed.
Print Assumptions C33_obfuscation_lossless_partial.

(** C33: a link already containing a character reference is encoded twice, so
    the reader no longer sees the same address. *)
Theorem C33_obfuscation_lossless_refuted :
  exists html out,
    obfuscate_email_links html = ObfOk out false /\
    resolve_mixed out <> resolve_mixed html.
Proof. exact obf_lossless_refuted. Qed.
Print Assumptions C33_obfuscation_lossless_refuted.

(** C34: memory safety of the obfuscation for every document that does not end
    in [>] ... *)
Theorem C34_obfuscation_safe_partial :
  forall html, (forall a, html <> a ++ [">"%char]) ->
  exists out, obfuscate_email_links html = ObfOk out false.
Proof. exact obf_safe. Qed.
Print Assumptions C34_obfuscation_safe_partial.

(** ... and a document ending in [>] on which it runs past the terminator. *)
Theorem C34_obfuscation_safe_refuted :
  exists html out, obfuscate_email_links html = ObfOverRun out.
Proof. exact obf_safe_refuted. Qed.
Print Assumptions C34_obfuscation_safe_refuted.

Example C34_case : forall a, B "<p>hello</p>" ++ [NL] <> a ++ [">"%char].
Proof. intros a H. apply (f_equal (fun l => last l NUL)) in H.
  cbv beta in H. rewrite !last_last in H. vm_compute in H. discriminate. Qed.

(** C35: a mail link comes out with neither its address nor its text readable:
    both consist of character references only. *)
Theorem C35_mail_link_obfuscated :
  forall addr text,
  ~ In DQ addr -> ~ In "<"%char text -> text <> [] ->
  obfuscate_email_links
    (B "<a href=""mailto:" ++ addr ++ B """>" ++ text ++ B "</a>" ++ [NL])
  = ObfOk (B "<a href=""" ++ flat_map reference (B "mailto:" ++ addr) ++ B """>"
           ++ flat_map reference text ++ B "</a>" ++ [NL]) false.
Proof. exact obf_link. Qed.
Print Assumptions C35_mail_link_obfuscated.

Example C35_case :
  ~ In DQ (B "me@x.org") /\ ~ In "<"%char (B "write me") /\ B "write me" <> [].
Proof. repeat split; try discriminate; intros H; vm_compute in H; intuition discriminate. Qed.
