(** C01: property theorems about value classification. *)
From Verif Require Import Base TagModel TagSpec TagProof.

(** A pattern is a BQN number exactly if it is not a signalling NaN: finite numbers, infinities and quiet NaNs are numbers. *)
Theorem C01_number_iff : forall u, word u -> (isF64 u = true <-> ~ ieee_signalling_nan u).
Proof. exact isF64_iff. Qed.
Print Assumptions C01_number_iff.

(** A pattern is a reference-counted object exactly if it is a signalling NaN with the sign bit set. *)
Theorem C01_refcounted_iff : forall u, word u -> (isVal u = true <-> ieee_signalling_nan u /\ sign u = 1).
Proof. exact isVal_iff. Qed.
Print Assumptions C01_refcounted_iff.

Theorem C01_exactly_one_kind : forall u, word u ->
  (isF64 u = true /\ isVal u = false /\ isC32 u = false) \/
  (isF64 u = false /\ isVal u = true /\ isC32 u = false) \/
  (isF64 u = false /\ isVal u = false /\ (0x7FF0 <= u / 2^48 < 0x7FF8)).
Proof. exact kind_exactly_one. Qed.
Print Assumptions C01_exactly_one_kind.

(** A number is none of the tagged kinds. *)
Theorem C01_number_has_no_tag : forall u, word u -> isF64 u = true ->
  isVal u = false /\ isC32 u = false /\ isArr u = false /\ isCallable u = false /\ isNsp u = false /\ isObj u = false
  /\ isTag u = false /\ isVar u = false /\ isExt u = false.
Proof. exact number_only. Qed.
Print Assumptions C01_number_has_no_tag.

(** Functions, arrays, modifiers, namespaces and objects are reference-counted; characters and special values are not. *)
Theorem C01_heap_tags_are_refcounted : forall u, word u ->
  isFun u || isArr u || isMd1 u || isMd2 u || isNsp u || isObj u = true -> isVal u = true /\ isF64 u = false.
Proof. exact val_tags. Qed.
Print Assumptions C01_heap_tags_are_refcounted.
Theorem C01_direct_tags_are_not_refcounted : forall u, word u ->
  isC32 u || isTag u || isVar u || isExt u = true -> isVal u = false /\ isF64 u = false.
Proof. exact direct_not_val. Qed.
Print Assumptions C01_direct_tags_are_not_refcounted.

(** Two different tags are never both present. *)
Theorem C01_tag_unique : forall u t1 t2, hasTag u t1 = true -> hasTag u t2 = true -> t1 = t2.
Proof. exact hasTag_inj. Qed.
Print Assumptions C01_tag_unique.

(** The payload of every 48-bit pointer under every 16-bit tag is read back unchanged, and the tag is the one that was put. *)
Theorem C01_payload_roundtrip : forall v t, 0 <= v < 2^48 -> 0 <= t < 2^16 ->
  word (tagu64 v t) /\ untag (tagu64 v t) = v /\ hasTag (tagu64 v t) t = true.
Proof. exact tag_roundtrip. Qed.
Print Assumptions C01_payload_roundtrip.

Theorem C01_char_roundtrip : forall n, 0 <= n < 2^32 ->
  word (m_c32 n) /\ isC32 (m_c32 n) = true /\ o2cG (m_c32 n) = n /\ isF64 (m_c32 n) = false /\ isVal (m_c32 n) = false.
Proof. exact c32_roundtrip. Qed.
Print Assumptions C01_char_roundtrip.

(** The tests that a character fits one or two bytes are exact. *)
Theorem C01_char_width : forall n, 0 <= n < 2^32 ->
  (q_c8 (m_c32 n) = true <-> n < 256) /\ (q_c16 (m_c32 n) = true <-> n < 65536).
Proof. exact c32_narrow. Qed.
Print Assumptions C01_char_width.

Theorem C01_modifier_and_callable : forall u, isMd u = isMd1 u || isMd2 u /\ isCallable u = isMd1 u || isMd2 u || isFun u.
Proof. intros u; split; [exact (isMd_iff u) | exact (isCallable_iff u)]. Qed.
Print Assumptions C01_modifier_and_callable.

(** Non-vacuity: infinity, a NaN, a character and an array pointer. *)
Example C01_ex : word 0x7FF0000000000000 /\ isF64 0x7FF0000000000000 = true /\ isF64 0xFFF0000000000000 = true
  /\ isF64 0x7FF8000000000000 = true /\ isF64 0x7FF0000000000001 = false
  /\ isArr (tagu64 0x123456 ARR_TAG) = true /\ isVal (tagu64 0x123456 ARR_TAG) = true /\ q_c8 (m_c32 255) = true /\ q_c8 (m_c32 256) = false.
Proof. unfold word. repeat split; vm_compute; congruence. Qed.
