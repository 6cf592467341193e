From Verif Require Import Base TagModel TagSpec.

Lemma mod_case a m k : 0 < m -> k * m <= a < (k+1) * m -> a mod m = a - k * m.
Proof. intros. symmetry. apply (Z.mod_unique a m k); lia. Qed.
Lemma div_case a m k : 0 < m -> k * m <= a < (k+1) * m -> a / m = k.
Proof. intros. symmetry. apply (Z.div_unique a m k (a - k*m)); lia. Qed.

(** Every tag test and IEEE predicate as plain intervals of the pattern. *)
Lemma isF64_flat u : word u ->
  isF64 u = if u <? 2^63 then negb ((0x7FF0000000000000 <? u) && (u <? 0x7FF8000000000000))
            else negb ((0xFFF0000000000000 <? u) && (u <? 0xFFF8000000000000)).
Proof.
  intros H. unfold word, isF64, shl64, u64, M64 in *.
  change ((0xFFE * 2^52) mod 2^64) with 0xFFE0000000000000.
  change ((1 * 2^52) mod 2^64 - 2) with (0xFFFFFFFFFFFFE).
  change (2^64) with 18446744073709551616 in *. change (2^63) with 9223372036854775808 in *. change (2^1) with 2.
  destruct (Z.ltb_spec u 9223372036854775808).
  - rewrite (mod_case (u*2) 18446744073709551616 0) by lia.
    destruct (Z.lt_ge_cases u 0x7FF0000000000001).
    + rewrite (mod_case _ 18446744073709551616 (-1)) by lia. lia.
    + rewrite (mod_case _ 18446744073709551616 0) by lia. lia.
  - rewrite (mod_case (u*2) 18446744073709551616 1) by lia.
    destruct (Z.lt_ge_cases u 0xFFF0000000000001).
    + rewrite (mod_case _ 18446744073709551616 (-1)) by lia. lia.
    + rewrite (mod_case _ 18446744073709551616 0) by lia. lia.
Qed.

Lemma isVal_flat u : word u -> isVal u = (0xFFF0000000000000 <? u) && (u <? 0xFFF8000000000000).
Proof.
  intros H. unfold word, isVal, shl64, u64, M64, VAL_TAG in *.
  change ((0x1FFE * 2^51) mod 2^64) with 0xFFF0000000000000.
  change ((1 * 2^51) mod 2^64 - 1) with (0x7FFFFFFFFFFFF).
  change (2^64) with 18446744073709551616 in *.
  destruct (Z.lt_ge_cases u 0xFFF0000000000001).
  - rewrite (mod_case _ 18446744073709551616 (-1)) by lia. lia.
  - rewrite (mod_case _ 18446744073709551616 0) by lia. lia.
Qed.

Lemma hasTag_flat u t : hasTag u t = (t * 2^48 <=? u) && (u <? (t+1) * 2^48).
Proof.
  unfold hasTag, shr64. change (2^48) with 281474976710656.
  destruct (Z.eqb_spec (u / 281474976710656) t); lia.
Qed.

Lemma snan_flat u : word u -> ieee_signalling_nan u <->
  0x7FF0000000000000 < u < 0x7FF8000000000000 \/ 0xFFF0000000000000 < u < 0xFFF8000000000000.
Proof.
  intros H. unfold ieee_signalling_nan, ieee_nan, exponent, fraction, word in *.
  assert (Hd := Z.div_mod u (2^52) ltac:(lia)). assert (Hb := Z.mod_pos_bound u (2^52) ltac:(lia)).
  set (q := u / 2^52) in *. set (f := u mod 2^52) in *.
  change (2^64) with 18446744073709551616 in *. change (2^52) with 4503599627370496 in *. change (2^51) with 2251799813685248.
  change (2^11) with 2048. clearbody q f.
  destruct (Z.lt_ge_cases q 2048).
  - rewrite (mod_case q 2048 0) by lia. lia.
  - rewrite (mod_case q 2048 1) by lia. lia.
Qed.

Lemma sign_flat u : word u -> (sign u = 1 <-> 2^63 <= u).
Proof.
  intros H. unfold sign, word in *. change (2^63) with 9223372036854775808. change (2^64) with 18446744073709551616 in *. lia.
Qed.

Ltac flat := unfold isFun, isArr, isC32, isVar, isExt, isTag, isMd1, isMd2, isNsp, isObj, isAtm in *;
  rewrite ?hasTag_flat in *;
  unfold C32_TAG, TAG_TAG, VAR_TAG, EXT_TAG, RAW_TAG, MD1_TAG, MD2_TAG, FUN_TAG, NSP_TAG, OBJ_TAG, ARR_TAG in *;
  change (2^48) with 281474976710656 in *; change (2^63) with 9223372036854775808 in *;
  repeat match goal with |- context [if ?a <? ?b then _ else _] => destruct (Z.ltb_spec a b) end.

Lemma isF64_iff u : word u -> isF64 u = true <-> ~ ieee_signalling_nan u.
Proof. intros H. rewrite isF64_flat, snan_flat by assumption. unfold word in H; flat; lia. Qed.

Lemma isVal_iff u : word u -> isVal u = true <-> (ieee_signalling_nan u /\ sign u = 1).
Proof. intros H. rewrite isVal_flat, snan_flat, sign_flat by assumption. unfold word in H; flat; lia. Qed.

Lemma isMd_iff u : isMd u = isMd1 u || isMd2 u.
Proof.
  flat. unfold isMd, shr64. change (2^49) with 562949953421312. change (MD2_TAG / 2) with 32761.
  destruct (Z.eqb_spec (u / 562949953421312) 32761); lia.
Qed.

Lemma isCallable_iff u : isCallable u = isMd1 u || isMd2 u || isFun u.
Proof.
  unfold isCallable, isMd1, isMd2, isFun, hasTag. set (t := shr64 u 48). cbv zeta. unfold MD1_TAG, MD2_TAG, FUN_TAG. lia.
Qed.

Lemma lor_disjoint v t k : 0 <= k -> 0 <= v < 2^k -> Z.lor v (t * 2^k) = v + t * 2^k.
Proof.
  intros Hk Hv. rewrite Z.add_nocarry_lxor, Z.lxor_lor; [reflexivity| |].
  all: apply Z.bits_inj'; intros n Hn; rewrite Z.land_spec, Z.bits_0;
    destruct (Z.lt_ge_cases n k); [rewrite Z.mul_pow2_bits_low by lia; apply andb_false_r|];
    replace v with (v mod 2^k) by (apply Z.mod_small; lia); rewrite Z.mod_pow2_bits_high by lia; reflexivity.
Qed.

Lemma tagu64_add v t : 0 <= v < 2^48 -> 0 <= t < 2^16 -> tagu64 v t = v + t * 2^48.
Proof.
  intros Hv Ht. unfold tagu64, ftag, shl64, u64, M64.
  rewrite Z.mod_small by (change (2^48) with 281474976710656 in *; change (2^64) with 18446744073709551616; change (2^16) with 65536 in *; lia).
  apply lor_disjoint; lia.
Qed.

Lemma untag_mod u : untag u = u mod 2^48.
Proof. unfold untag. change 0xFFFFFFFFFFFF with (Z.ones 48). apply Z.land_ones. lia. Qed.

Lemma tag_roundtrip v t : 0 <= v < 2^48 -> 0 <= t < 2^16 ->
  word (tagu64 v t) /\ untag (tagu64 v t) = v /\ hasTag (tagu64 v t) t = true.
Proof.
  intros Hv Ht. rewrite untag_mod, hasTag_flat, tagu64_add by assumption.
  rewrite Z.mod_add by lia. rewrite Z.mod_small by lia. unfold word.
  change (2^48) with 281474976710656 in *; change (2^64) with 18446744073709551616; change (2^16) with 65536 in *. lia.
Qed.

Lemma hasTag_inj u t1 t2 : hasTag u t1 = true -> hasTag u t2 = true -> t1 = t2.
Proof. unfold hasTag. lia. Qed.

Lemma c32_add n : 0 <= n < 2^32 -> m_c32 n = n + 0x7FF1000000000000.
Proof. intros H. unfold m_c32. rewrite tagu64_add; unfold C32_TAG; change (2^48) with 281474976710656; change (2^32) with 4294967296 in *; change (2^16) with 65536; lia. Qed.

Lemma c32_roundtrip n : 0 <= n < 2^32 ->
  word (m_c32 n) /\ isC32 (m_c32 n) = true /\ o2cG (m_c32 n) = n /\ isF64 (m_c32 n) = false /\ isVal (m_c32 n) = false.
Proof.
  intros H. rewrite c32_add by assumption. assert (word (n + 0x7FF1000000000000)) as W.
  { unfold word. change (2^32) with 4294967296 in *. change (2^64) with 18446744073709551616. lia. }
  rewrite isF64_flat, isVal_flat by assumption. unfold o2cG, word in *. flat; [|lia]. change (2^32) with 4294967296 in *.
  change 0x7FF1000000000000 with (2146500608 * 4294967296). rewrite Z.mod_add by lia. rewrite Z.mod_small by lia. lia.
Qed.

Lemma c32_narrow n : 0 <= n < 2^32 -> (q_c8 (m_c32 n) = true <-> n < 256) /\ (q_c16 (m_c32 n) = true <-> n < 65536).
Proof.
  intros H. rewrite c32_add by assumption. unfold q_c8, q_c16, shr64, shl64, u64, M64, C32_TAG.
  change ((0x7FF1 * 2^40) mod 2^64) with 0x7FF10000000000. change ((0x7FF1 * 2^32) mod 2^64) with 0x7FF100000000.
  change (2^8) with 256. change (2^16) with 65536. change (2^32) with 4294967296 in *. lia.
Qed.

Lemma number_only u : word u -> isF64 u = true ->
  isVal u = false /\ isC32 u = false /\ isArr u = false /\ isCallable u = false /\ isNsp u = false /\ isObj u = false /\ isTag u = false /\ isVar u = false /\ isExt u = false.
Proof. intros H. rewrite isCallable_iff. rewrite isF64_flat, isVal_flat by assumption. unfold word in H; flat; lia. Qed.

Lemma val_tags u : word u -> isFun u || isArr u || isMd1 u || isMd2 u || isNsp u || isObj u = true -> isVal u = true /\ isF64 u = false.
Proof. intros H. rewrite isF64_flat, isVal_flat by assumption. unfold word in H; flat; lia. Qed.

Lemma direct_not_val u : word u -> isC32 u || isTag u || isVar u || isExt u = true -> isVal u = false /\ isF64 u = false.
Proof. intros H. rewrite isF64_flat, isVal_flat by assumption. unfold word in H; flat; lia. Qed.

(** The kind of a pattern, as a total classification. *)
Lemma kind_exactly_one u : word u ->
  (isF64 u = true /\ isVal u = false /\ isC32 u = false) \/
  (isF64 u = false /\ isVal u = true /\ isC32 u = false) \/
  (isF64 u = false /\ isVal u = false /\ (0x7FF0 <= u / 2^48 < 0x7FF8)).
Proof.
  intros H. rewrite isF64_flat, isVal_flat by assumption. unfold word in H; flat; lia.
Qed.
