(** C07, C08: text encoding. *)
From Verif Require Import Base UtfModel UtfSpec UtfProof.

(** The encoder writes exactly the RFC 3629 bytes. *)
Theorem C07_encode_is_rfc3629 : forall cs, Forall codept cs -> toUTF8 cs = enc cs.
Proof. exact toUTF8_enc. Qed.
Print Assumptions C07_encode_is_rfc3629.

(** Decoding the encoding of any code points gives them back. *)
Theorem C07_utf8_roundtrip : forall cs, Forall codept cs -> utf8Decode (toUTF8 cs) = Ok cs.
Proof. exact utf8_roundtrip. Qed.
Print Assumptions C07_utf8_roundtrip.

(** The length computed in advance is the number of bytes written. *)
Theorem C07_utf8_length : forall cs, utf8lenB cs = Z.of_nat (length (toUTF8 cs)).
Proof. exact utf8len_length. Qed.
Print Assumptions C07_utf8_length.

(** UTF-16: decoding then encoding is the identity on every sequence of 16-bit units; encoding then decoding is
    the identity on every character sequence without a surrogate pair spelled as two characters. *)
Theorem C07_utf16_units_roundtrip : forall ws, Forall unit16 ws -> toUTF16 (utf16Decode ws) = ws.
Proof. exact utf16_enc_dec. Qed.
Print Assumptions C07_utf16_units_roundtrip.
Theorem C07_utf16_chars_roundtrip : forall cs, Forall unichar cs -> no_pair cs -> utf16Decode (toUTF16 cs) = cs.
Proof. exact utf16_dec_enc. Qed.
Print Assumptions C07_utf16_chars_roundtrip.
Theorem C07_utf16_length : forall cs, utf16lenB cs = Z.of_nat (length (toUTF16 cs)).
Proof. exact utf16len_length. Qed.
Print Assumptions C07_utf16_length.
(** The first pass of the UTF-16 decoder sizes the result exactly. *)
Theorem C07_utf16_decode_size : forall ws, utf16_count ws = length (utf16Decode ws).
Proof. exact utf16_count_length. Qed.
Print Assumptions C07_utf16_decode_size.

Example C07_ex : Forall codept [0x61; 0x3BB; 0x1D55A; 0xD800; 0x20AC] /\
  toUTF8 [0x61; 0x3BB; 0x20AC; 0x1D55A] = [0x61; 0xCE; 0xBB; 0xE2; 0x82; 0xAC; 0xF0; 0x9D; 0x95; 0x9A].
Proof. split; [repeat constructor; discriminate|vm_compute; reflexivity]. Qed.
Example C07_ex16 : Forall unichar [0x61; 0xDC00; 0x1D55A; 0xD800] /\ no_pair [0x61; 0xDC00; 0x1D55A; 0xD800] /\ Forall unit16 [0xD835; 0xDD5A; 0xD800].
Proof.
  repeat split; try (repeat constructor; unfold unichar, unit16; lia).
  intros i a b Ha Hb. destruct i as [|[|[|[|i]]]]; cbn in Ha, Hb; try (destruct i; discriminate); try discriminate; injection Ha as <-; injection Hb as <-; lia.
Qed.

(** C08, what holds: for every byte string decoding either returns one character per chunk, or raises an error, and it raises one
    exactly if the bytes are not a sequence of chunks of the announced lengths; no byte outside of the string is read. *)
Theorem C08_decode_accepts_partial : forall bs, bytes bs ->
  (exists cs, utf8Decode bs = Ok cs /\ lead_structured bs (length cs)) \/ (utf8Decode bs = Err /\ ~ exists n, lead_structured bs n).
Proof. exact decode_total. Qed.
Print Assumptions C08_decode_accepts_partial.

(** Valid input is always accepted and decoded correctly. *)
Theorem C08_valid_is_accepted : forall bs, valid_utf8 bs -> exists cs, Forall scalar cs /\ enc cs = bs /\ utf8Decode bs = Ok cs.
Proof. exact valid_decodes. Qed.
Print Assumptions C08_valid_is_accepted.

(** C08 as stated is false: malformed continuation bytes, overlong forms and values above U+10FFFF are accepted. *)
Theorem C08_invalid_accepted_refuted : exists bs cs, bytes bs /\ utf8Decode bs = Ok cs /\ ~ valid_utf8 bs.
Proof.
  exists [0xC3; 0x28], [0xE8]. split; [repeat constructor; lia|]. split; [vm_compute; reflexivity|].
  apply bad_witness with (cs := [0xE8]); [vm_compute; reflexivity|vm_compute; discriminate].
Qed.
Print Assumptions C08_invalid_accepted_refuted.
Theorem C08_overlong_accepted_refuted : exists bs, bytes bs /\ utf8Decode bs = Ok [0x2F] /\ ~ valid_utf8 bs.
Proof.
  exists [0xC0; 0xAF]. split; [repeat constructor; lia|]. split; [vm_compute; reflexivity|].
  apply bad_witness with (cs := [0x2F]); [vm_compute; reflexivity|vm_compute; discriminate].
Qed.
Print Assumptions C08_overlong_accepted_refuted.
Theorem C08_out_of_range_accepted_refuted : exists bs c, bytes bs /\ utf8Decode bs = Ok [c] /\ 0x10FFFF < c /\ ~ valid_utf8 bs.
Proof.
  exists [0xF7; 0xBF; 0xBF; 0xBF], 0x1FFFFF. split; [repeat constructor; lia|]. split; [vm_compute; reflexivity|]. split; [lia|].
  apply bad_witness2 with (cs := [0x1FFFFF]); [vm_compute; reflexivity|]. intros F. inversion F as [|? ? H]; subst. unfold scalar in H. lia.
Qed.
Print Assumptions C08_out_of_range_accepted_refuted.
Example C08_ex : bytes [0xE2; 0x82] /\ utf8Decode [0xE2; 0x82] = Err /\ valid_utf8 [0xE2; 0x82; 0xAC].
Proof. repeat split; [repeat constructor; lia|]. exists [0x20AC]. split; [repeat constructor; lia|vm_compute; reflexivity]. Qed.
