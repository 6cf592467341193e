(** C12, C13, C36: bit-packed arrays. *)
From Verif Require Import Base BitLemmas BitsModel BitsSpec BitsProof BitsProof2 WidenModel WidenProof.

(** ** C12: copies and fills *)
(** Copying l bits from bit xs of the array at word x to bit rs of the array at word r. Source and target may be in the same array as long as
    the source does not start before the target while overlapping it. The memory must contain a word before the source array (its header)
    and one readable word past the source range. *)
Theorem C12_copy_exact : forall m r rs x xs l,
  words m -> 0 <= r -> 0 <= rs -> 1 <= x -> 0 <= xs -> 0 <= l ->
  64 * r + rs + l <= 64 * Z.of_nat (length m) -> 64 * x + xs + l + 64 <= 64 * Z.of_nat (length m) ->
  (64 * r + rs <= 64 * x + xs \/ 64 * x + xs + l <= 64 * r + rs) ->
  exists m', bit_cpy m r rs x xs l = Ok m' /\ length m' = length m /\ words m' /\
    (forall i, 0 <= i < l -> mbit m' (64 * r + rs + i) = mbit m (64 * x + xs + i)) /\
    (forall k, 0 <= k -> k < 64 * r + rs \/ 64 * r + rs + l <= k -> mbit m' k = mbit m k).
Proof.
  intros m r rs x xs l Hw Hr Hrs Hx Hxs Hl H1 H2 H3. destruct (bit_cpy_spec m r rs x xs l) as [m' [E [L [W H]]]]; auto.
  exists m'. split; [exact E|]. split; [unfold len in L; lia|]. split; [exact W|]. split.
  - intros i Hi. rewrite H by lia. destruct (Z.leb_spec (64*r+rs) (64*r+rs+i)), (Z.ltb_spec (64*r+rs+i) (64*r+rs+l)); try lia. cbn [andb]. f_equal. lia.
  - intros k Hk Ho. rewrite H by lia. destruct (Z.leb_spec (64*r+rs) k), (Z.ltb_spec k (64*r+rs+l)); try lia; reflexivity.
Qed.
Print Assumptions C12_copy_exact.
(** a copy of 130 bits with different alignments inside of one memory *)
Example C12_copy_example : words [0; 0x0123456789abcdef; 0xfedcba9876543210; 0xaaaaaaaaaaaaaaaa; 0; 0; 0; 0; 0] /\
  bit_cpy [0; 0x0123456789abcdef; 0xfedcba9876543210; 0xaaaaaaaaaaaaaaaa; 0; 0; 0; 0; 0] 4 7 1 12 130
  = Ok [0; 0x0123456789abcdef; 0xfedcba9876543210; 0xaaaaaaaaaaaaaaaa; 9225934084642790912; 6338506227549643152; 341; 0; 0].
Proof. split; [repeat constructor; lia|vm_compute; reflexivity]. Qed.

Theorem C12_fill_exact : forall m p ms v l,
  words m -> 0 <= p -> 0 <= ms -> 0 <= l -> p + (ms + l) / 64 < Z.of_nat (length m) ->
  exists m', bit_fill m p ms v l = Ok m' /\ length m' = length m /\ words m' /\
    (forall i, 0 <= i < l -> mbit m' (64 * p + ms + i) = v) /\
    (forall k, 0 <= k -> k < 64 * p + ms \/ 64 * p + ms + l <= k -> mbit m' k = mbit m k).
Proof.
  intros m p ms v l Hw Hp Hms Hl H. destruct (bit_fill_spec m p ms v l) as [m' [E [L [W Hm]]]]; auto.
  exists m'. split; [exact E|]. split; [unfold len in L; lia|]. split; [exact W|]. split.
  - intros i Hi. rewrite Hm by lia. destruct (Z.leb_spec (64*p+ms) (64*p+ms+i)), (Z.ltb_spec (64*p+ms+i) (64*p+ms+l)); try lia. reflexivity.
  - intros k Hk Ho. rewrite Hm by lia. destruct (Z.leb_spec (64*p+ms) k), (Z.ltb_spec k (64*p+ms+l)); try lia; reflexivity.
Qed.
Print Assumptions C12_fill_exact.
(** A fill that ends at a multiple of 64 also rewrites the next word (with its own value), so it does not stay inside of an array whose
    storage ends there. *)
Theorem C12_fill_stays_in_array_refuted : exists m p ms v l, words m /\ 0 <= ms /\ 0 <= l /\ 64 * p + ms + l <= 64 * Z.of_nat (length m) /\ bit_fill m p ms v l = UB.
Proof. exists [0; 0], 0, 3, true, 125. split; [repeat constructor; lia|]. repeat split; try (cbn; lia). Qed.
Print Assumptions C12_fill_stays_in_array_refuted.

Theorem C12_set_get : forall m p n v, words m -> 0 <= p -> 0 <= n -> 64 * p + n < 64 * Z.of_nat (length m) ->
  bitp_get m p n = Ok (mbit m (64 * p + n)) /\
  exists m', bitp_set m p n v = Ok m' /\ length m' = length m /\ words m' /\ mbit m' (64 * p + n) = v /\ forall k, 0 <= k -> k <> 64 * p + n -> mbit m' k = mbit m k.
Proof.
  intros m p n v Hw Hp Hn Hl. split; [apply bitp_get_spec; auto|]. destruct (bitp_set_spec m p n v) as [m' [E [L [W H]]]]; auto.
  exists m'. split; [exact E|]. split; [unfold len in L; lia|]. split; [exact W|]. split.
  - rewrite H by lia. rewrite Z.eqb_refl. reflexivity.
  - intros k Hk Nk. rewrite H by lia. destruct (Z.eqb_spec k (64*p+n)); [lia|reflexivity].
Qed.
Print Assumptions C12_set_get.

(** ** C13: search and counting *)
Theorem C13_find_first : forall m p n v, words m -> 0 <= p -> 0 <= n -> p + n / 64 < Z.of_nat (length m) ->
  bit_find m p n v = Ok (first_index v (bits_of m p n)).
Proof. intros. apply bit_find_first; auto. Qed.
Print Assumptions C13_find_first.
Theorem C13_has_iff_in : forall m p n v, words m -> 0 <= p -> 0 <= n -> 64 * p + n <= 64 * Z.of_nat (length m) ->
  exists b, bit_has m p n v = Ok b /\ (b = true <-> In v (bits_of m p n)).
Proof. intros m p n v Hw Hp Hn Hl. destruct (bit_has_spec m p n v) as [b [E H]]; auto. exists b. split; [exact E|]. rewrite in_bits_of. exact H. Qed.
Print Assumptions C13_has_iff_in.
Theorem C13_sum_counts : forall m p n, 0 <= p -> 0 <= n -> 64 * p + n <= 64 * Z.of_nat (length m) ->
  bit_sum m p n = Ok (count_true (bits_of m p n)).
Proof. intros. apply bit_sum_spec; auto. Qed.
Print Assumptions C13_sum_counts.
Theorem C13_isSorted_iff : forall m p down n, words m -> 0 <= p -> 0 <= n -> p + (n + 1) / 64 < Z.of_nat (length m) ->
  exists b, bit_isSorted m p down n = Ok b /\ (b = true <-> ordered down (bits_of m p (n + 1))).
Proof. intros. apply bit_isSorted_spec; auto. Qed.
Print Assumptions C13_isSorted_iff.
Theorem C13_negate : forall m, words m -> words (bit_negate m) /\ forall k, 0 <= k < 64 * Z.of_nat (length m) -> mbit (bit_negate m) k = negb (mbit m k).
Proof.
  intros m Hw. split.
  - unfold words, bit_negate in *. apply Forall_map. eapply Forall_impl; [|exact Hw]. intros a Ha. apply not64_range. exact Ha.
  - intros k Hk. unfold mbit, bit_negate. rewrite (nth_indep (map not64 m) 0 (not64 0)) by (rewrite map_length; lia). rewrite map_nth, tb_not64 by lia.
    destruct (Z.ltb_spec (k mod 64) 64); [|lia]. rewrite xorb_true_r. reflexivity.
Qed.
Print Assumptions C13_negate.
(** the last partial word with its unused bits cleared, or set *)
Theorem C13_tail_words : forall m p n, words m -> 0 <= p -> 0 <= n -> n mod 64 <> 0 -> 64 * p + n <= 64 * Z.of_nat (length m) ->
  exists a b, bitp_l0 m p n = Ok a /\ bitp_l1 m p n = Ok b /\ forall i, 0 <= i < 64 ->
    Z.testbit a i = (if i <? n mod 64 then mbit m (64 * (p + n / 64) + i) else false) /\ Z.testbit b i = (if i <? n mod 64 then mbit m (64 * (p + n / 64) + i) else true).
Proof.
  intros m p n Hw Hp Hn Hne Hl. unfold bitp_l0, bitp_l1. rewrite land63, shr6. destruct (Z.eqb_spec (n mod 64) 0); [lia|]. rewrite rdz_ok by (unfold len; lia). cbn [bind].
  eexists _, _. split; [reflexivity|]. split; [reflexivity|]. intros i Hi. rewrite shl1m, Z.land_spec, Z.lor_spec, tb_not64, tb_ones, mbit_word by lia. destruct (Z.ltb_spec i 64); [|lia].
  destruct (Z.ltb_spec i (n mod 64)); cbn; rewrite ?andb_true_r, ?andb_false_r, ?orb_false_r, ?orb_true_r; split; reflexivity.
Qed.
Print Assumptions C13_tail_words.
Example C13_example : words [7; 0; 5] /\ bit_find [7; 0; 5] 0 130 false = Ok 3 /\ bit_has [7; 0; 5] 0 130 true = Ok true /\ bit_sum [7; 0; 5] 0 130 = Ok 4 /\
  bit_isSorted [7; 0; 5] 0 true 127 = Ok true /\ bit_isSorted [7; 0; 5] 0 true 129 = Ok false.
Proof. split; [repeat constructor; lia|]. vm_compute. repeat split. Qed.

(** ** C36: widening cells of bits and narrowing them back *)
Theorem C36_widen_zero_pads : forall r x csz cam, words r -> words x -> 0 < csz -> 0 <= cam -> let w := widenSize csz in
  csz < w -> cam * w <= 64 * Z.of_nat (length r) -> cam * csz + 64 <= 64 * Z.of_nat (length x) ->
  exists r', bitwiden r w x csz cam = Ok r' /\ words r' /\ length r' = length r /\
    forall i b, 0 <= i < cam -> 0 <= b < w -> mbit r' (i * w + b) = if b <? csz then mbit x (i * csz + b) else false.
Proof.
  intros r x csz cam Hr Hx Hc Hcam w Hlt H1 H2. destruct (widenSize_spec csz Hc) as [_ Hw]. fold w in Hw.
  destruct (bitwiden_spec r w x csz cam) as [r' [E [L [W [H _]]]]]; auto. exists r'. split; [exact E|]. split; [exact W|]. split; [unfold len in L; lia|].
  intros i b Hi Hb. rewrite H by auto. unfold widened. destruct (b <? csz); reflexivity.
Qed.
Print Assumptions C36_widen_zero_pads.
(** r1 and r2 are the freshly allocated results, with arbitrary contents *)
Theorem C36_widen_narrow_roundtrip : forall r1 r2 x csz cam, words r1 -> words r2 -> words x -> 0 < csz -> 0 <= cam -> let w := widenSize csz in
  csz < w -> cam * w <= 64 * Z.of_nat (length r1) -> cam * csz <= 64 * Z.of_nat (length r2) -> cam * csz + 64 <= 64 * Z.of_nat (length x) ->
  exists r1' r2', bitwiden r1 w x csz cam = Ok r1' /\ bitnarrow r2 csz r1' w cam = Ok r2' /\
    forall k, 0 <= k < cam * csz -> mbit r2' k = mbit x k.
Proof.
  intros r1 r2 x csz cam Hr1 Hr2 Hx Hc Hcam w Hlt H1 H2 H3. destruct (widenSize_spec csz Hc) as [_ Hw]. fold w in Hw.
  destruct (bitwiden_spec r1 w x csz cam) as [r' [E [L [W [H _]]]]]; auto. unfold len in L.
  destruct (bitnarrow_spec r2 csz r' w cam) as [r'' [E' [L' [W' H']]]]; auto.
  - unfold len. lia.
  - intros i b Hi Hb. rewrite H by lia. unfold widened. destruct (Z.ltb_spec b csz); [lia|reflexivity].
  - exists r', r''. split; [exact E|]. split; [exact E'|]. intros k Hk.
    assert (Hd : 0 <= k mod csz < csz) by (apply Z.mod_pos_bound; lia). assert (Hk2 : k = (k / csz) * csz + k mod csz) by (rewrite Z.mul_comm; apply Z.div_mod; lia).
    assert (Hi : 0 <= k / csz < cam) by (split; [apply Z.div_pos; lia|apply Z.div_lt_upper_bound; lia]).
    rewrite Hk2 at 1. rewrite H' by lia. rewrite H by lia. unfold widened. destruct (Z.ltb_spec (k mod csz) csz); [|lia]. cbn [andb]. rewrite <- Hk2. reflexivity.
Qed.
Print Assumptions C36_widen_narrow_roundtrip.
Example C36_example : widenSize 70 = 128 /\
  bitwiden [1; 1; 1; 1; 1] 128 [0x123456789abcdef; 0xfedcba9876543210; 0xff; 0; 0] 70 2 = Ok [81985529216486895; 16; 18445463049815544008; 3; 1] /\
  bitnarrow [9; 9; 9] 70 [81985529216486895; 16; 18445463049815544008; 3; 1] 128 2 = Ok [0x123456789abcdef; 0xfedcba9876543210; 0xff].
Proof. vm_compute. repeat split. Qed.

(** ** C38 (part): the widened array's size is computed in 32 bits without a check, so there are arrays (2^29+1 rows of 5 bits, below the
    maximum element count) for which fewer bits are allocated than are then written. *)
Theorem C38_widen_result_size_refuted : exists csz cam, 0 < csz /\ cam * csz <= 2^32 - 1 - 65 /\ widenAlloc csz cam < widenWritten csz cam.
Proof. exists 5, (2^29 + 1). vm_compute. repeat split; discriminate. Qed.
Print Assumptions C38_widen_result_size_refuted.
