From Verif Require Import Base BitLemmas BitsModel BitsSpec BitsProof BitsProof2 WidenModel.

Lemma memZ_bits m : words m -> forall k, 0 <= k -> Z.testbit (memZ m) k = mbit m k.
Proof.
  intros Hw. induction Hw as [|w m Hr Hw IH]; intros k Hk.
  - cbn [memZ]. rewrite Z.bits_0. unfold mbit. destruct (Z.to_nat (k/64)); rewrite Z.bits_0; reflexivity.
  - cbn [memZ]. rewrite (Z.mul_comm (2^64)), <- lor_disjoint by lia. rewrite Z.lor_spec. destruct (Z.lt_ge_cases k 64) as [L|G].
    + rewrite Z.mul_pow2_bits_low, orb_false_r by lia. unfold mbit. replace (k/64) with 0 by lia. replace (k mod 64) with k by lia. reflexivity.
    + rewrite (range_bits w 64) by lia. rewrite Z.mul_pow2_bits by lia. rewrite IH by lia. cbn [orb]. unfold mbit.
      replace (Z.to_nat (k/64)) with (S (Z.to_nat ((k-64)/64))) by lia. cbn [nth]. f_equal. lia.
Qed.
Lemma ldbits_spec m off n : words m -> 0 <= off -> 0 <= n -> off + n <= 64 * len m ->
  exists v, ldbits m off n = Ok v /\ 0 <= v < 2^n /\ forall b, 0 <= b < n -> Z.testbit v b = mbit m (off + b).
Proof.
  intros Hw Ho Hn Hl. unfold ldbits. unfold len in Hl. destruct (Z.ltb_spec off 0); [lia|]. destruct (Z.ltb_spec (64 * Z.of_nat (length m)) (off+n)); [lia|]. cbn [orb].
  eexists. split; [reflexivity|]. split.
  - rewrite Z.land_ones by lia. apply Z.mod_pos_bound. apply Z.pow_pos_nonneg; lia.
  - intros b Hb. rewrite Z.land_spec, tb_ones, Z.shiftr_spec, memZ_bits by (auto; lia). destruct (Z.ltb_spec b n); [|lia]. rewrite andb_true_r. f_equal. lia.
Qed.

Definition cellw (n : Z) : Prop := n = 8 \/ n = 16 \/ n = 32 \/ n = 64.
Lemma stbits_spec m off n v : words m -> 0 <= off -> cellw n -> off mod n = 0 -> off + n <= 64 * len m ->
  exists m', stbits m off n v = Ok m' /\ len m' = len m /\ words m' /\
    forall k, 0 <= k -> mbit m' k = if (off <=? k) && (k <? off + n) then Z.testbit v (k - off) else mbit m k.
Proof.
  intros Hw Ho Hn Hm Hl. assert (Hin : off mod 64 + n <= 64) by (destruct Hn as [->|[->|[->| ->]]]; lia).
  assert (Hn0 : 0 < n <= 64) by (destruct Hn as [->|[->|[->| ->]]]; lia). clear Hn Hm.
  unfold stbits. rewrite rdz_ok by lia. cbn [bind]. rewrite wrz_ok by lia. eexists. split; [reflexivity|]. split; [apply len_upd|]. split.
  - apply words_upd; auto. apply lor_range; [apply land_range, word_range; auto|apply shl_range].
  - intros k Hk. rewrite mbit_upd by lia. destruct (Z.eqb_spec (k/64) (off/64)) as [E|N].
    + rewrite Z.lor_spec, Z.land_spec, tb_not64, !tb_shl by lia. destruct (Z.ltb_spec (k mod 64) 64); [|lia]. rewrite !andb_true_r. rewrite (mbit_split m k), E.
      replace (k mod 64 - off mod 64) with (k - off) by lia. rewrite Z.land_spec.
      destruct (Z.leb_spec off k).
      * rewrite !tb_ones by lia. destruct (Z.ltb_spec (k-off) n), (Z.ltb_spec k (off+n)); cbn; try lia; rewrite ?andb_true_r, ?andb_false_r, ?orb_false_r; reflexivity.
      * rewrite (Z.testbit_neg_r (Z.ones n) (k-off)), (Z.testbit_neg_r v (k-off)) by lia. cbn. rewrite andb_true_r, orb_false_r. reflexivity.
    + destruct (Z.leb_spec off k), (Z.ltb_spec k (off+n)); cbn; reflexivity || lia.
Qed.

Lemma rbuu64_spec m off : words m -> 0 <= off -> off / 64 + 1 < len m ->
  exists v, rbuu64 m off = Ok v /\ 0 <= v < 2^64 /\ forall b, 0 <= b < 64 -> Z.testbit v b = mbit m (off + b).
Proof.
  intros Hw Ho Hl. unfold rbuu64. rewrite shr6, land63, !rdz_ok by lia. cbn [bind]. eexists. split; [reflexivity|]. split; [apply w64_range|].
  intros b Hb. rewrite tb_w64, Z.shiftr_spec, Z.lor_spec by lia. destruct (Z.ltb_spec b 64); [|lia]. rewrite andb_true_r, Z.shiftl_spec by lia.
  destruct (Z.lt_ge_cases (b + off mod 64) 64) as [L|G].
  - rewrite (Z.testbit_neg_r _ (b + off mod 64 - 64)), orb_false_r by lia. rewrite <- mbit_word by lia. f_equal. lia.
  - rewrite (range_bits (word m (off/64)) 64) by (try apply word_range; auto; lia). cbn [orb]. rewrite <- mbit_word by lia. f_equal. lia.
Qed.
Lemma rbuu58_spec m off : words m -> 0 <= off -> off + 64 <= 64 * len m ->
  exists v, rbuu58 m off = Ok v /\ forall b, 0 <= b < 57 -> Z.testbit v b = mbit m (off + b).
Proof.
  intros Hw Ho Hl. unfold rbuu58. assert (E3 : Z.shiftr off 3 = off / 8) by (rewrite Z.shiftr_div_pow2 by lia; reflexivity).
  assert (E7 : Z.land off 7 = off mod 8) by (change 7 with (Z.ones 3); rewrite Z.land_ones by lia; reflexivity). rewrite E3, E7.
  destruct (ldbits_spec m (8 * (off/8)) 64) as [v [E [Hr Hb]]]; [exact Hw|lia|lia|lia|]. rewrite E. cbn [bind]. eexists. split; [reflexivity|].
  intros b Hbb. rewrite Z.shiftr_spec, Hb by lia. f_equal. lia.
Qed.

(** a loop over cells, each writing its own n-bit range *)
Lemma cells_loop (F : Z -> Z -> bool) (base n N : Z) (f : Z -> list Z -> res (list Z)) r0 :
  0 < n -> 0 <= base -> words r0 -> 
  (forall i r, 0 <= i < N -> len r = len r0 -> words r -> exists r', f i r = Ok r' /\ len r' = len r0 /\ words r' /\
     forall k, 0 <= k -> mbit r' k = if (base + i * n <=? k) && (k <? base + i * n + n) then F i (k - (base + i * n)) else mbit r k) ->
  forall c i r, 0 <= i -> i + Z.of_nat c <= N -> len r = len r0 -> words r ->
  exists r', for_ c i f r = Ok r' /\ len r' = len r0 /\ words r' /\
    (forall j b, i <= j < i + Z.of_nat c -> 0 <= b < n -> mbit r' (base + j * n + b) = F j b) /\
    (forall k, 0 <= k -> k < base + i * n \/ base + (i + Z.of_nat c) * n <= k -> mbit r' k = mbit r k).
Proof.
  intros Hn Hb0 Hw0 Hf. induction c as [|c IH]; intros i r Hi Hc Hlen Hw; cbn [for_].
  - exists r. split; [reflexivity|]. split; [exact Hlen|]. split; [exact Hw|]. split; [intros; lia|auto].
  - destruct (Hf i r) as [r1 [E1 [L1 [W1 H1]]]]; [lia|exact Hlen|exact Hw|]. rewrite E1. cbn [bind].
    destruct (IH (i+1) r1) as [r2 [E2 [L2 [W2 [H2 H3]]]]]; [lia|lia|exact L1|exact W1|]. exists r2. split; [exact E2|]. split; [exact L2|]. split; [exact W2|]. split.
    + intros j b Hj Hb. destruct (Z.eq_dec j i) as [->|N0].
      * rewrite H3 by nia. rewrite H1 by nia. destruct (Z.leb_spec (base+i*n) (base+i*n+b)), (Z.ltb_spec (base+i*n+b) (base+i*n+n)); try lia. cbn [andb]. f_equal. lia.
      * apply H2; [lia|exact Hb].
    + intros k Hk Hout. rewrite H3 by nia. rewrite H1 by nia. destruct (Z.leb_spec (base+i*n) k), (Z.ltb_spec k (base+i*n+n)); cbn [andb]; try reflexivity. nia.
Qed.

Definition widened (x : list Z) (xcsz : Z) (i b : Z) : bool := (b <? xcsz) && mbit x (i * xcsz + b).

Lemma bitwiden_spec r rcsz x xcsz cam : words r -> words x -> 0 < xcsz -> xcsz < rcsz ->
  (cellw rcsz \/ rcsz mod 64 = 0 /\ rcsz - xcsz < 64) -> 0 <= cam ->
  cam * rcsz <= 64 * len r -> cam * xcsz + 64 <= 64 * len x ->
  exists r', bitwiden r rcsz x xcsz cam = Ok r' /\ len r' = len r /\ words r' /\
    (forall j b, 0 <= j < cam -> 0 <= b < rcsz -> mbit r' (j * rcsz + b) = widened x xcsz j b) /\
    (forall k, cam * rcsz <= k -> mbit r' k = mbit r k).
Proof.
  intros Hwr Hwx Hx Hlt Hc Hcam Hr Hxl.
  assert (Hmul : forall i, 0 <= i < cam -> i * xcsz + xcsz <= cam * xcsz /\ i * rcsz + rcsz <= cam * rcsz /\ 0 <= i * xcsz /\ 0 <= i * rcsz) by (intros; nia).
  assert (FIN : forall f, (forall i r1, 0 <= i < cam -> len r1 = len r -> words r1 -> exists r', f i r1 = Ok r' /\ len r' = len r /\ words r' /\
     forall k, 0 <= k -> mbit r' k = if (i * rcsz <=? k) && (k <? i * rcsz + rcsz) then widened x xcsz i (k - i * rcsz) else mbit r1 k) ->
     exists r', for_ (Z.to_nat cam) 0 f r = Ok r' /\ len r' = len r /\ words r' /\
    (forall j b, 0 <= j < cam -> 0 <= b < rcsz -> mbit r' (j * rcsz + b) = widened x xcsz j b) /\
    (forall k, cam * rcsz <= k -> mbit r' k = mbit r k)).
  { intros f Hf. destruct (cells_loop (widened x xcsz) 0 rcsz cam f r ltac:(lia) ltac:(lia) Hwr Hf (Z.to_nat cam) 0 r) as [r' [E [L [W [H1 H2]]]]]; [lia|lia|reflexivity|exact Hwr|].
    exists r'. split; [exact E|]. split; [exact L|]. split; [exact W|]. split; [intros; apply H1; lia|]. intros k Hk. apply H2; [nia|]. right. replace (0 + Z.of_nat (Z.to_nat cam)) with cam by lia. exact Hk. }
  unfold bitwiden. destruct ((rcsz <=? 32) && (Z.land xcsz (xcsz - 1) =? 0) && ((xcsz =? 1) || (xcsz =? 8) || (xcsz =? 16))) eqn:G1.
  - apply andb_true_iff in G1. destruct G1 as [G1 _]. apply andb_true_iff in G1. destruct G1 as [G1 _]. apply Z.leb_le in G1.
    assert (Hcw : cellw rcsz) by (destruct Hc as [Hc|Hc]; [exact Hc|lia]).
    apply FIN. intros i r1 Hi L1 W1. destruct (Hmul i Hi) as [M1 [M2 [M3 M4]]].
    destruct (ldbits_spec x (i*xcsz) xcsz) as [v [E [Hv Hb]]]; [exact Hwx|lia|lia|lia|]. rewrite E. cbn [bind].
    destruct (stbits_spec r1 (i*rcsz) rcsz v) as [r2 [E2 [L2 [W2 H2]]]]; [exact W1|lia|exact Hcw|apply Z.mod_mul; lia|lia|].
    exists r2. split; [exact E2|]. split; [lia|]. split; [exact W2|]. intros k Hk. rewrite H2 by lia.
    destruct (Z.leb_spec (i*rcsz) k), (Z.ltb_spec k (i*rcsz+rcsz)); cbn [andb]; try reflexivity. unfold widened.
    destruct (Z.ltb_spec (k - i*rcsz) xcsz); cbn [andb]; [apply Hb; lia|]. apply (range_bits v xcsz); lia.
  - clear G1. destruct (Z.leb_spec rcsz 64) as [L64|G64].
    + assert (Hcw : cellw rcsz) by (destruct Hc as [Hc|Hc]; [exact Hc|unfold cellw; lia]).
      assert (BODY : forall (rb : list Z -> Z -> res Z), (forall i, 0 <= i < cam -> exists v, rb x (i*xcsz) = Ok v /\ forall b, 0 <= b < xcsz -> Z.testbit v b = mbit x (i*xcsz+b)) ->
         forall i r1, 0 <= i < cam -> len r1 = len r -> words r1 -> exists r', (do v <- rb x (i*xcsz); stbits r1 (i * rcsz) rcsz (Z.land v (shl 1 xcsz - 1))) = Ok r' /\ len r' = len r /\ words r' /\
     forall k, 0 <= k -> mbit r' k = if (i * rcsz <=? k) && (k <? i * rcsz + rcsz) then widened x xcsz i (k - i * rcsz) else mbit r1 k).
      { intros rb Hrb i r1 Hi L1 W1. destruct (Hmul i Hi) as [M1 [M2 [M3 M4]]]. destruct (Hrb i Hi) as [v [E Hb]]. rewrite E. cbn [bind].
        destruct (stbits_spec r1 (i*rcsz) rcsz (Z.land v (shl 1 xcsz - 1))) as [r2 [E2 [L2 [W2 H2]]]]; [exact W1|lia|exact Hcw|apply Z.mod_mul; lia|lia|].
        exists r2. split; [exact E2|]. split; [lia|]. split; [exact W2|]. intros k Hk. rewrite H2 by lia.
        destruct (Z.leb_spec (i*rcsz) k), (Z.ltb_spec k (i*rcsz+rcsz)); cbn [andb]; try reflexivity. unfold widened.
        rewrite shl1m, Z.land_spec, tb_ones by lia. destruct (Z.ltb_spec (k - i*rcsz) xcsz); cbn [andb]; rewrite ?andb_true_r, ?andb_false_r; [apply Hb; lia|reflexivity]. }
      destruct ((rcsz =? 8) || (rcsz =? 16) || (rcsz =? 32)) eqn:G2.
      * apply FIN. apply BODY. intros i Hi. destruct (Hmul i Hi) as [M1 [M2 [M3 M4]]].
        destruct (rbuu58_spec x (i*xcsz)) as [v [E Hb]]; [exact Hwx|lia|lia|]. exists v. split; [exact E|]. intros b Hbb. apply Hb. lia.
      * assert (E64 : rcsz = 64) by (unfold cellw in Hcw; lia). destruct (Z.eqb_spec rcsz 64); [|lia]. apply FIN. apply BODY. intros i Hi. destruct (Hmul i Hi) as [M1 [M2 [M3 M4]]].
        destruct (rbuu64_spec x (i*xcsz)) as [v [E [_ Hb]]]; [exact Hwx|lia|lia|]. exists v. split; [exact E|]. intros b Hbb. apply Hb. lia.
    + assert (Hc' : rcsz mod 64 = 0 /\ rcsz - xcsz < 64) by (destruct Hc as [Hc|Hc]; [unfold cellw in Hc; lia|exact Hc]). clear Hc. destruct Hc' as [Hm64 Hpad].
      rewrite !shr6, land63. set (q := xcsz / 64). assert (Hq : rcsz = 64 * (q + 1)) by lia. assert (Hq2 : rcsz / 64 = q + 1) by lia. rewrite Hq2.
      apply FIN. intros i r1 Hi L1 W1. destruct (Hmul i Hi) as [M1 [M2 [M3 M4]]].
      assert (Hi6 : i * rcsz = 64 * (i * (q + 1))) by (rewrite Hq; ring).
      destruct (cells_loop (fun j b => mbit x (i*xcsz + j * 64 + b)) (i*rcsz) 64 q (fun j r => do v <- rbuu64 x (i * xcsz + j * 64); wrz r (i * (q+1) + j) v) r1 ltac:(lia) M4 W1) with (c := Z.to_nat q) (i := 0) (r := r1) as [r2 [E2 [L2 [W2 [H2 H3]]]]].
      * intros j r3 Hj L3 W3. destruct (rbuu64_spec x (i * xcsz + j * 64)) as [v [E [Rv Hb]]]; [exact Hwx|lia|lia|]. rewrite E. cbn [bind].
        rewrite wrz_ok by lia. eexists. split; [reflexivity|]. split; [rewrite len_upd; exact L3|]. split; [apply words_upd; auto|]. intros k Hk. rewrite mbit_upd by lia.
        destruct (Z.leb_spec (i*rcsz+j*64) k), (Z.ltb_spec k (i*rcsz+j*64+64)), (Z.eqb_spec (k/64) (i*(q+1)+j)); cbn [andb]; try lia; try reflexivity.
        rewrite Hb by lia. f_equal. lia.
      * lia.
      * lia.
      * reflexivity.
      * exact W1.
      * rewrite E2. cbn [bind]. destruct (rbuu64_spec x (i * xcsz + q * 64)) as [v [E [Rv Hb]]]; [exact Hwx|lia|lia|]. rewrite E. cbn [bind].
        rewrite wrz_ok by lia. eexists. split; [reflexivity|]. split; [rewrite len_upd; lia|]. split; [apply words_upd; [exact W2|apply land_range; exact Rv]|].
        intros k Hk. rewrite mbit_upd by lia. assert (Hne : 0 < xcsz mod 64) by lia.
        destruct (Z.eqb_spec (k/64) (i*(q+1)+q)) as [Ek|Nk].
        -- destruct (Z.leb_spec (i*rcsz) k); [|lia]. destruct (Z.ltb_spec k (i*rcsz+rcsz)); [|lia]. cbn [andb]. unfold widened.
           rewrite shl1m, Z.land_spec, tb_ones by lia. destruct (Z.ltb_spec (k mod 64) (xcsz mod 64)), (Z.ltb_spec (k - i*rcsz) xcsz); cbn [andb]; try lia; rewrite ?andb_true_r, ?andb_false_r; try reflexivity.
           rewrite Hb by lia. f_equal. lia.
        -- destruct (Z.leb_spec (i*rcsz) k); cbn [andb]; [|apply H3; lia]. destruct (Z.ltb_spec k (i*rcsz+rcsz)); cbn [andb]; [|apply H3; lia].
           unfold widened. destruct (Z.ltb_spec (k - i*rcsz) xcsz); [|lia]. cbn [andb].
           specialize (H2 ((k - i*rcsz)/64) ((k - i*rcsz) mod 64)). replace (i*rcsz + (k - i*rcsz)/64*64 + (k - i*rcsz) mod 64) with k in H2 by lia.
           rewrite H2 by lia. f_equal. lia.
Qed.

(** * narrowing *)
(** T bits of the stream G have been appended *)
Record abinv (L : Z) (G : Z -> bool) (T : Z) (s : ABState) : Prop := mkinv {
  ai_T : T = 64 * ab_ptr s + ab_off s;
  ai_off : 0 <= ab_off s < 64;
  ai_ptr : 0 <= ab_ptr s;
  ai_len : len (ab_mem s) = L;
  ai_words : words (ab_mem s);
  ai_tmp : 0 <= ab_tmp s < 2 ^ ab_off s;
  ai_done : forall k, 0 <= k < 64 * ab_ptr s -> mbit (ab_mem s) k = G k;
  ai_cur : forall b, 0 <= b < ab_off s -> Z.testbit (ab_tmp s) b = G (64 * ab_ptr s + b) }.

Lemma ab_new_inv G r : words r -> abinv (len r) G 0 (ab_new r).
Proof. intros H. constructor; cbn; try lia; try exact H; try reflexivity; intros; lia. Qed.

Lemma pow2_le64 k : 0 <= k <= 64 -> 0 < 2^k <= 2^64.
Proof. intros. split; [apply Z.pow_pos_nonneg; lia|apply Z.pow_le_mono_r; lia]. Qed.

Lemma ab_add_spec L G T s val count : abinv L G T s -> 0 <= count <= 64 -> 0 <= val < 2^count -> T + count <= 64 * L ->
  (forall b, 0 <= b < count -> Z.testbit val b = G (T + b)) ->
  exists s', ab_add s val count = Ok s' /\ abinv L G (T + count) s'.
Proof.
  intros [HT Ho Hp Hl Hw Ht Hd Hc] Hcnt Hv Hm Hb. unfold ab_add. rewrite land63. destruct s as [r ptr tmp off]. cbn [ab_mem ab_ptr ab_tmp ab_off] in *.
  assert (Rt : 0 <= tmp < 2^64) by (assert (X := pow2_le64 off); lia).
  assert (TB : forall b, 0 <= b < 64 -> Z.testbit (Z.lor tmp (shl val off)) b = if b <? off + count then G (64 * ptr + b) else false).
  { intros b Hbb. rewrite Z.lor_spec, tb_shl by lia. destruct (Z.ltb_spec b 64); [|lia]. rewrite andb_true_r. destruct (Z.lt_ge_cases b off) as [Lo|Go].
    - rewrite (Z.testbit_neg_r val (b - off)), orb_false_r by lia. destruct (Z.ltb_spec b (off+count)); [|lia]. apply Hc. lia.
    - rewrite (range_bits tmp off) by lia. cbn [orb]. destruct (Z.ltb_spec b (off+count)).
      + rewrite Hb by lia. f_equal. lia.
      + apply (range_bits val count); lia. }
  assert (Rl : 0 <= Z.lor tmp (shl val off) < 2^64) by (apply lor_range; [exact Rt|apply shl_range]).
  destruct (Z.leb_spec 64 (off + count)) as [G64|L64].
  - rewrite wrz_ok by lia. cbn [bind]. eexists. split; [reflexivity|]. constructor; cbn [ab_mem ab_ptr ab_tmp ab_off].
    + lia.
    + lia.
    + lia.
    + rewrite len_upd. exact Hl.
    + apply words_upd; auto.
    + replace ((off + count) mod 64) with (off + count - 64) by lia. destruct (Z.eqb_spec off 0) as [->|N0].
      * assert (X := pow2_le64 (0 + count - 64)). lia.
      * rewrite Z.shiftr_div_pow2 by lia. assert (0 < 2^(64-off)) by (apply Z.pow_pos_nonneg; lia). split; [apply Z.div_pos; lia|]. apply Z.div_lt_upper_bound; [lia|].
        rewrite <- Z.pow_add_r by lia. replace (64 - off + (off + count - 64)) with count by lia. lia.
    + intros k Hk. rewrite mbit_upd by lia. destruct (Z.eqb_spec (k/64) ptr) as [E|N0].
      * rewrite TB by lia. destruct (Z.ltb_spec (k mod 64) (off+count)); [|lia]. f_equal. lia.
      * apply Hd. lia.
    + intros b Hbb. destruct (Z.eqb_spec off 0) as [->|N0].
      * lia.
      * rewrite Z.shiftr_spec by lia. rewrite Hb by lia. f_equal. lia.
  - eexists. split; [reflexivity|]. constructor; cbn [ab_mem ab_ptr ab_tmp ab_off]; auto; try lia.
    + apply bits_range; [lia|]. intros i Hi. destruct (Z.lt_ge_cases i 64).
      * rewrite TB by lia. destruct (Z.ltb_spec i (off+count)); [lia|reflexivity].
      * apply (range_bits _ 64); lia.
    + intros b Hbb. rewrite TB by lia. destruct (Z.ltb_spec b (off+count)); [reflexivity|lia].
Qed.
Lemma ab_done_spec L G T s : abinv L G T s -> T <= 64 * L ->
  exists r, ab_done s = Ok r /\ len r = L /\ words r /\ forall k, 0 <= k < T -> mbit r k = G k.
Proof.
  intros [HT Ho Hp Hl Hw Ht Hd Hc] Hm. unfold ab_done. destruct (Z.eqb_spec (ab_off s) 0) as [E|N].
  - eexists. split; [reflexivity|]. split; [exact Hl|]. split; [exact Hw|]. intros k Hk. apply Hd. lia.
  - rewrite wrz_ok by lia. eexists. split; [reflexivity|]. split; [rewrite len_upd; exact Hl|]. split; [apply words_upd; [exact Hw|assert (X := pow2_le64 (ab_off s)); lia]|].
    intros k Hk. rewrite mbit_upd by lia. destruct (Z.eqb_spec (k/64) (ab_ptr s)).
    + rewrite Hc by lia. f_equal. lia.
    + apply Hd. lia.
Qed.

Lemma ab_loop L G w N (f : Z -> ABState -> res ABState) :
  forall T0, (forall i s, 0 <= i < N -> abinv L G (T0 + i * w) s -> exists s', f i s = Ok s' /\ abinv L G (T0 + i * w + w) s') ->
  forall c i s, 0 <= i -> i + Z.of_nat c <= N -> abinv L G (T0 + i * w) s -> exists s', for_ c i f s = Ok s' /\ abinv L G (T0 + (i + Z.of_nat c) * w) s'.
Proof.
  intros T0 Hf. induction c as [|c IH]; intros i s Hi Hc Hinv; cbn [for_].
  - exists s. split; [reflexivity|]. replace (i + Z.of_nat 0) with i by lia. exact Hinv.
  - destruct (Hf i s) as [s1 [E1 I1]]; [lia|exact Hinv|]. rewrite E1. cbn [bind]. replace (T0 + i * w + w) with (T0 + (i+1) * w) in I1 by ring.
    destruct (IH (i+1) s1) as [s2 [E2 I2]]; [lia|lia|exact I1|]. exists s2. split; [exact E2|]. replace (i + Z.of_nat (S c)) with (i + 1 + Z.of_nat c) by lia. exact I2.
Qed.

Lemma ones_id_land v n : 0 <= v < 2^n -> 0 <= n -> Z.land v (Z.ones n) = v.
Proof. intros. rewrite Z.land_ones, Z.mod_small by lia. reflexivity. Qed.

Lemma land_pow2_bad n : 64 < n \/ Z.land n (n-1) <> 0 -> ((n <=? 64) && (Z.land n (n - 1) =? 0)) = false.
Proof. intros H. destruct (Z.leb_spec n 64), (Z.eqb_spec (Z.land n (n-1)) 0); cbn; reflexivity || lia. Qed.

Lemma bitnarrow_spec r rcsz x xcsz cam : words r -> words x -> 0 < rcsz -> rcsz < xcsz ->
  (cellw xcsz \/ xcsz mod 64 = 0 /\ xcsz - rcsz < 64) -> 0 <= cam ->
  cam * rcsz <= 64 * len r -> cam * xcsz <= 64 * len x ->
  (forall i b, 0 <= i < cam -> rcsz <= b < xcsz -> mbit x (i * xcsz + b) = false) ->
  exists r', bitnarrow r rcsz x xcsz cam = Ok r' /\ len r' = len r /\ words r' /\
    (forall i b, 0 <= i < cam -> 0 <= b < rcsz -> mbit r' (i * rcsz + b) = mbit x (i * xcsz + b)).
Proof.
  intros Hwr Hwx Hr Hlt Hc Hcam Hrl Hxl Hz.
  set (G := fun k => mbit x ((k / rcsz) * xcsz + k mod rcsz)).
  assert (HG : forall i b, 0 <= b < rcsz -> G (i * rcsz + b) = mbit x (i * xcsz + b)).
  { intros i b Hb. unfold G. rewrite Z.div_add_l, Z.div_small, Z.add_0_r by lia. rewrite (Z.add_comm (i*rcsz) b), Z.mod_add, Z.mod_small by lia. reflexivity. }
  assert (Hmul : forall i, 0 <= i < cam -> i * xcsz + xcsz <= cam * xcsz /\ i * rcsz + rcsz <= cam * rcsz /\ 0 <= i * xcsz /\ 0 <= i * rcsz) by (intros; nia).
  assert (FIN : forall f, (forall i s, 0 <= i < cam -> abinv (len r) G (0 + i * rcsz) s -> exists s', f i s = Ok s' /\ abinv (len r) G (0 + i * rcsz + rcsz) s') ->
    exists r', (do s <- for_ (Z.to_nat cam) 0 f (ab_new r); ab_done s) = Ok r' /\ len r' = len r /\ words r' /\
    (forall i b, 0 <= i < cam -> 0 <= b < rcsz -> mbit r' (i * rcsz + b) = mbit x (i * xcsz + b))).
  { intros f Hf. destruct (ab_loop (len r) G rcsz cam f 0 Hf (Z.to_nat cam) 0 (ab_new r)) as [s [E I1]]; [lia|lia|replace (0 + 0 * rcsz) with 0 by lia; apply ab_new_inv; exact Hwr|].
    rewrite E. cbn [bind]. replace (0 + (0 + Z.of_nat (Z.to_nat cam)) * rcsz) with (cam * rcsz) in I1 by nia. destruct (ab_done_spec _ _ _ _ I1 Hrl) as [r' [E2 [L2 [W2 H2]]]].
    exists r'. split; [exact E2|]. split; [exact L2|]. split; [exact W2|]. intros i b Hi Hb. destruct (Hmul i Hi) as [M1 [M2 [M3 M4]]]. rewrite H2 by lia. apply HG. exact Hb. }
  unfold bitnarrow. destruct Hc as [Hc|[Hm64 Hpad]].
  - assert (E1 : ((xcsz <=? 64) && (Z.land xcsz (xcsz - 1) =? 0)) = true) by (destruct Hc as [->|[->|[->| ->]]]; reflexivity).
    assert (E2 : ((xcsz =? 8) || (xcsz =? 16) || (xcsz =? 32) || (xcsz =? 64)) = true) by (destruct Hc as [->|[->|[->| ->]]]; reflexivity). rewrite E1, E2.
    apply FIN. intros i s Hi Hs. destruct (Hmul i Hi) as [M1 [M2 [M3 M4]]].
    destruct (ldbits_spec x (i*xcsz) xcsz) as [v [E [Hv Hb]]]; [exact Hwx|lia|lia|lia|]. rewrite E. cbn [bind].
    apply ab_add_spec with (1 := Hs); [unfold cellw in Hc; lia| |lia|].
    + apply bits_range; [lia|]. intros b Hbb. destruct (Z.lt_ge_cases b xcsz); [rewrite Hb by lia; apply Hz; lia|apply (range_bits v xcsz); lia].
    + intros b Hbb. rewrite Hb by lia. rewrite Z.add_0_l. symmetry. apply HG. lia.
  - destruct (Z.eq_dec xcsz 64) as [E64|N64].
    + (* 64 is also handled by the first path *)
      assert (Hc : cellw xcsz) by (unfold cellw; lia).
      assert (E1 : ((xcsz <=? 64) && (Z.land xcsz (xcsz - 1) =? 0)) = true) by (rewrite E64; reflexivity).
      assert (E2 : ((xcsz =? 8) || (xcsz =? 16) || (xcsz =? 32) || (xcsz =? 64)) = true) by (rewrite E64; reflexivity). rewrite E1, E2.
      apply FIN. intros i s Hi Hs. destruct (Hmul i Hi) as [M1 [M2 [M3 M4]]].
      destruct (ldbits_spec x (i*xcsz) xcsz) as [v [E [Hv Hb]]]; [exact Hwx|lia|lia|lia|]. rewrite E. cbn [bind].
      apply ab_add_spec with (1 := Hs); [lia| |lia|].
      * apply bits_range; [lia|]. intros b Hbb. destruct (Z.lt_ge_cases b xcsz); [rewrite Hb by lia; apply Hz; lia|apply (range_bits v xcsz); lia].
      * intros b Hbb. rewrite Hb by lia. rewrite Z.add_0_l. symmetry. apply HG. lia.
    + rewrite land_pow2_bad by lia. rewrite shr6, land63. assert (E3 : 8 * Z.shiftr xcsz 3 = xcsz) by (rewrite Z.shiftr_div_pow2 by lia; change (2^3) with 8; lia). rewrite E3.
      set (q := rcsz / 64). assert (Hq : xcsz = 64 * (q + 1)) by lia. apply FIN. intros i s Hi Hs. destruct (Hmul i Hi) as [M1 [M2 [M3 M4]]].
      destruct (ab_loop (len r) G 64 q (fun j s => do v <- ldbits x (i * xcsz + 64 * j) 64; ab_add s v 64) (0 + i * rcsz)) with (c := Z.to_nat q) (i := 0) (s := s) as [s1 [E1 I1]].
      * intros j s1 Hj Is. destruct (ldbits_spec x (i*xcsz + 64 * j) 64) as [v [E [Hv Hb]]]; [exact Hwx|lia|lia|lia|]. rewrite E. cbn [bind].
        apply ab_add_spec with (1 := Is); [lia|lia|lia|]. intros b Hbb. rewrite Hb by lia. replace (0 + i*rcsz + j*64 + b) with (i*rcsz + (64*j+b)) by lia. rewrite HG by lia. f_equal. lia.
      * lia.
      * lia.
      * replace (0 + i * rcsz + 0 * 64) with (0 + i * rcsz) by lia. exact Hs.
      * rewrite E1. cbn [bind]. destruct (ldbits_spec x (i*xcsz + 64 * q) 64) as [v [E [Hv Hb]]]; [exact Hwx|lia|lia|lia|]. rewrite E. cbn [bind].
        replace (0 + i * rcsz + (0 + Z.of_nat (Z.to_nat q)) * 64) with (0 + i * rcsz + 64 * q) in I1 by lia.
        replace (0 + i * rcsz + rcsz) with (0 + i * rcsz + 64 * q + rcsz mod 64) by lia.
        apply ab_add_spec with (1 := I1); [lia| |lia|].
        -- rewrite shl1m by lia. rewrite Z.land_ones by lia. apply Z.mod_pos_bound. apply Z.pow_pos_nonneg; lia.
        -- intros b Hbb. rewrite shl1m, Z.land_spec, tb_ones by lia. destruct (Z.ltb_spec b (rcsz mod 64)); [|lia]. rewrite andb_true_r, Hb by lia.
           replace (0 + i*rcsz + 64*q + b) with (i*rcsz + (64*q+b)) by lia. rewrite HG by lia. f_equal. lia.
Qed.

Lemma widenSize_spec pcsz : 0 < pcsz -> let n := widenSize pcsz in pcsz <= n /\ (cellw n \/ n mod 64 = 0 /\ n - pcsz < 64).
Proof.
  intros Hp. unfold widenSize, cellw. destruct (Z.leb_spec pcsz 8); [lia|]. destruct (Z.leb_spec pcsz 16); [lia|]. destruct (Z.leb_spec pcsz 32); [lia|].
  assert (E : Z.land (pcsz + 63) (Z.lnot 63) = (pcsz+63)/64*64).
  { change (Z.lnot 63) with (Z.lnot (Z.ones 6)). rewrite <- Z.ldiff_land, Z.ldiff_ones_r by lia. rewrite Z.shiftl_mul_pow2, Z.shiftr_div_pow2 by lia. reflexivity. }
  cbv zeta. rewrite E. lia.
Qed.
