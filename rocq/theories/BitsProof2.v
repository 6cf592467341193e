(** Single bits, fills, searches and counts. *)
From Verif Require Import Base BitLemmas BitsModel BitsSpec BitsProof.

(** * single bits *)
Lemma bitp_get_spec m p n : 0 <= p -> 0 <= n -> 64 * p + n < 64 * len m -> bitp_get m p n = Ok (mbit m (64 * p + n)).
Proof.
  intros. unfold bitp_get. rewrite shr6, land63, rdz_ok by lia. cbn [bind]. rewrite <- mbit_word by lia. f_equal. f_equal. lia.
Qed.
Lemma ones_range k : 0 <= k <= 64 -> 0 <= Z.ones k < 2^64.
Proof. intros. rewrite Z.ones_equiv. assert (0 < 2^k) by (apply Z.pow_pos_nonneg; lia). assert (2^k <= 2^64) by (apply Z.pow_le_mono_r; lia). lia. Qed.

Lemma setmask_spec m i v on (F : Z -> bool) : words m -> 0 <= i < len m -> 0 <= on < 2^64 ->
  (forall b, 0 <= b < 64 -> Z.testbit on b = F (64 * i + b)) ->
  exists m', setmask m i v on = Ok m' /\ len m' = len m /\ words m' /\
    forall k, 0 <= k -> mbit m' k = if (k / 64 =? i) && F k then v else mbit m k.
Proof.
  intros Hw Hi Hon HF. unfold setmask. rewrite rdz_ok by lia. cbn [bind]. rewrite wrz_ok by lia. eexists. split; [reflexivity|].
  split; [apply len_upd|]. assert (Hr : 0 <= (if v then Z.lor (word m i) on else Z.land (word m i) (not64 on)) < 2^64).
  { destruct v; [apply lor_range|apply land_range]; auto; apply word_range; auto. }
  split; [apply words_upd; auto|]. intros k Hk. rewrite mbit_upd by lia. destruct (Z.eqb_spec (k/64) i) as [<-|N]; cbn [andb]; [|reflexivity].
  assert (Hb : 0 <= k mod 64 < 64) by lia. specialize (HF _ Hb). replace (64 * (k/64) + k mod 64) with k in HF by lia. rewrite mbit_split.
  destruct v.
  - rewrite Z.lor_spec, HF. destruct (F k); [apply orb_true_r|apply orb_false_r].
  - rewrite Z.land_spec, tb_not64, HF by lia. destruct (Z.ltb_spec (k mod 64) 64); [|lia]. destruct (F k); cbn; [apply andb_false_r|apply andb_true_r].
Qed.

Lemma bitp_set_spec m p n v : words m -> 0 <= p -> 0 <= n -> 64 * p + n < 64 * len m ->
  exists m', bitp_set m p n v = Ok m' /\ len m' = len m /\ words m' /\ forall k, 0 <= k -> mbit m' k = if k =? 64 * p + n then v else mbit m k.
Proof.
  intros Hw Hp Hn Hl. change (bitp_set m p n v) with (setmask m (p + Z.shiftr n 6) v (shl 1 (Z.land n 63))). rewrite shr6, land63.
  destruct (setmask_spec m (p + n/64) v (shl 1 (n mod 64)) (fun k => k =? 64 * p + n)) as [m' [E [El [Ew H]]]]; auto; try lia.
  - apply shl_range.
  - intros b Hb. rewrite shl1 by lia. destruct (Z.eqb_spec (64 * (p + n/64) + b) (64*p+n)) as [E|N].
    + replace b with (n mod 64) by lia. apply Z.pow2_bits_true. lia.
    + apply Z.pow2_bits_false. lia.
  - exists m'. split; [exact E|]. split; [exact El|]. split; [exact Ew|]. intros k Hk. rewrite H by lia.
    destruct (Z.eqb_spec k (64*p+n)) as [->|]; [|rewrite andb_false_r; reflexivity]. destruct (Z.eqb_spec ((64*p+n)/64) (p+n/64)); [reflexivity|lia].
Qed.

(** * fill *)
Lemma fill_loop_spec (v : bool) : forall n m p, words m -> 0 <= p -> p + Z.of_nat n <= len m ->
  exists m', fill_loop n m p (if v then Z.ones 64 else 0) = Ok m' /\ len m' = len m /\ words m' /\
    forall k, 0 <= k -> mbit m' k = if (64 * p <=? k) && (k <? 64 * (p + Z.of_nat n)) then v else mbit m k.
Proof.
  induction n as [|n IH]; intros m p Hw Hp Hl; cbn [fill_loop].
  - exists m. split; [reflexivity|]. split; [reflexivity|]. split; [exact Hw|]. intros k Hk.
    destruct (Z.leb_spec (64*p) k), (Z.ltb_spec k (64*(p+Z.of_nat 0))); cbn; reflexivity || lia.
  - rewrite wrz_ok by lia. cbn [bind].
    assert (Hv : 0 <= (if v then Z.ones 64 else 0) < 2^64) by (destruct v; [apply ones64_range|lia]).
    destruct (IH (upd m (Z.to_nat p) (if v then Z.ones 64 else 0)) (p+1)) as [m' [E [El [Ew H]]]]; [apply words_upd; auto|lia|rewrite len_upd; lia|].
    exists m'. split; [exact E|]. rewrite len_upd in El. split; [exact El|]. split; [exact Ew|]. intros k Hk. rewrite H, mbit_upd by lia.
    destruct (Z.leb_spec (64*(p+1)) k), (Z.ltb_spec k (64*(p+1+Z.of_nat n))), (Z.leb_spec (64*p) k), (Z.ltb_spec k (64*(p+Z.of_nat (S n)))); cbn [andb]; try lia; try reflexivity;
      destruct (Z.eqb_spec (k/64) p); try lia; try reflexivity.
    destruct v; [rewrite tb_ones by lia; destruct (Z.ltb_spec (k mod 64) 64); [reflexivity|lia]|apply Z.bits_0].
Qed.

Lemma bit_fill_spec m p ms (v : bool) l : words m -> 0 <= p -> 0 <= ms -> 0 <= l -> p + (ms + l) / 64 < len m ->
  exists m', bit_fill m p ms v l = Ok m' /\ len m' = len m /\ words m' /\
    forall k, 0 <= k -> mbit m' k = if (64 * p + ms <=? k) && (k <? 64 * p + ms + l) then v else mbit m k.
Proof.
  intros Hw Hp Hms Hl Hb. unfold bit_fill. rewrite !shr6, !land63. destruct (Z.eqb_spec (ms/64) ((ms+l)/64)) as [E|N].
  - assert (Hmask : w64 (shl 1 ((ms + l) mod 64) - shl 1 (ms mod 64)) = Z.ldiff (Z.ones ((ms+l) mod 64)) (Z.ones (ms mod 64))).
    { rewrite <- Z.sub_nocarry_ldiff.
      - rewrite !shl1, !Z.ones_equiv by lia. unfold w64. rewrite Z.land_ones, Z.mod_small by (try lia;
          assert (2^((ms+l) mod 64) <= 2^64) by (apply Z.pow_le_mono_r; lia); assert (0 < 2^(ms mod 64)) by (apply Z.pow_pos_nonneg; lia);
          assert (2^(ms mod 64) <= 2^((ms+l) mod 64)) by (apply Z.pow_le_mono_r; lia); lia). lia.
      - apply Z.bits_inj'. intros i Hi. rewrite Z.ldiff_spec, !tb_ones, Z.bits_0 by lia. destruct (Z.ltb_spec i (ms mod 64)), (Z.ltb_spec i ((ms+l) mod 64)); cbn; reflexivity || lia. }
    rewrite Hmask.
    destruct (setmask_spec m (p + ms/64) v (Z.ldiff (Z.ones ((ms+l) mod 64)) (Z.ones (ms mod 64))) (fun k => (64 * p + ms <=? k) && (k <? 64 * p + ms + l))) as [m' [E1 [E2 [E3 H]]]]; auto; try lia.
    + rewrite <- Hmask. apply w64_range.
    + intros b Hbb. rewrite Z.ldiff_spec, !tb_ones by lia.
      destruct (Z.ltb_spec b ((ms+l) mod 64)), (Z.ltb_spec b (ms mod 64)), (Z.leb_spec (64*p+ms) (64*(p+ms/64)+b)), (Z.ltb_spec (64*(p+ms/64)+b) (64*p+ms+l)); cbn; reflexivity || lia.
    + exists m'. split; [exact E1|]. split; [exact E2|]. split; [exact E3|]. intros k Hk. rewrite H by lia.
      destruct (Z.leb_spec (64*p+ms) k), (Z.ltb_spec k (64*p+ms+l)); rewrite ?andb_true_r, ?andb_false_r; try reflexivity. cbn [andb].
      destruct (Z.eqb_spec (k/64) (p+ms/64)); [reflexivity|lia].
  - assert (Hlt : ms/64 < (ms+l)/64) by lia.
    destruct (setmask_spec m (p + ms/64) v (not64 (shl 1 (ms mod 64) - 1)) (fun k => (64 * p + ms <=? k))) as [m1 [E1 [L1 [W1 H1]]]]; auto; try lia.
    + rewrite shl1m by lia. apply not64_range. apply ones_range. lia.
    + intros b Hbb. rewrite shl1m, tb_not64, tb_ones by lia. destruct (Z.ltb_spec b 64); [|lia].
      destruct (Z.ltb_spec b (ms mod 64)), (Z.leb_spec (64*p+ms) (64*(p+ms/64)+b)); cbn; reflexivity || lia.
    + rewrite E1. cbn [bind].
      destruct (fill_loop_spec v (Z.to_nat ((ms + l) / 64 - (ms / 64 + 1))) m1 (p + ms/64 + 1)) as [m2 [E2 [L2 [W2 H2]]]]; [exact W1|lia|lia|]. rewrite E2. cbn [bind].
      destruct (setmask_spec m2 (p + (ms+l)/64) v (shl 1 ((ms+l) mod 64) - 1) (fun k => (k <? 64 * p + ms + l))) as [m3 [E3 [L3 [W3 H3]]]]; auto; try lia.
      * rewrite shl1m by lia. apply ones_range. lia.
      * intros b Hbb. rewrite shl1m, tb_ones by lia. destruct (Z.ltb_spec b ((ms+l) mod 64)), (Z.ltb_spec (64*(p+(ms+l)/64)+b) (64*p+ms+l)); cbn; reflexivity || lia.
      * exists m3. split; [exact E3|]. split; [lia|]. split; [exact W3|]. intros k Hk. rewrite H3, H2, H1 by lia.
        replace (64 * (p + ms / 64 + 1 + Z.of_nat (Z.to_nat ((ms + l) / 64 - (ms / 64 + 1))))) with (64 * (p + (ms+l)/64)) by lia.
        destruct (Z.leb_spec (64*p+ms) k), (Z.ltb_spec k (64*p+ms+l)); rewrite ?andb_true_r, ?andb_false_r; cbn [andb].
        -- destruct (Z.eqb_spec (k/64) (p+(ms+l)/64)); [reflexivity|]. destruct (Z.leb_spec (64*(p+ms/64+1)) k), (Z.ltb_spec k (64*(p+(ms+l)/64))); cbn [andb]; try reflexivity; try lia;
             destruct (Z.eqb_spec (k/64) (p+ms/64)); reflexivity || lia.
        -- destruct (Z.leb_spec (64*(p+ms/64+1)) k), (Z.ltb_spec k (64*(p+(ms+l)/64))); cbn [andb]; try reflexivity; try lia;
             destruct (Z.eqb_spec (k/64) (p+ms/64)); reflexivity || lia.
        -- destruct (Z.eqb_spec (k/64) (p+(ms+l)/64)); try lia. destruct (Z.leb_spec (64*(p+ms/64+1)) k); try lia. reflexivity.
        -- lia.
Qed.

(** * find *)
Lemma shr1_range x n : 0 <= x < 2 ^ (n + 1) -> 0 <= n -> 0 <= Z.shiftr x 1 < 2^n.
Proof. intros H Hn. rewrite Z.shiftr_div_pow2 by lia. rewrite Z.pow_add_r in H by lia. change (2^1) with 2 in *. lia. Qed.
Lemma ctz_loop_spec : forall n x j, 0 <= j < Z.of_nat n -> Z.testbit x j = true ->
  exists c, ctz_loop n x = Ok c /\ 0 <= c <= j /\ Z.testbit x c = true /\ forall i, 0 <= i < c -> Z.testbit x i = false.
Proof.
  induction n as [|n IH]; intros x j Hj Hb; cbn [ctz_loop]; [lia|]. destruct (Z.testbit x 0) eqn:E0.
  - exists 0. split; [reflexivity|]. split; [lia|]. split; [exact E0|]. intros; lia.
  - assert (j <> 0) by (intros ->; congruence). destruct (IH (Z.shiftr x 1) (j-1)) as [c [Ec [Hc [Tc Fc]]]]; [lia|rewrite Z.shiftr_spec by lia; replace (j-1+1) with j by lia; exact Hb|].
    rewrite Ec. cbn [bind]. exists (c+1). split; [reflexivity|]. split; [lia|]. rewrite Z.shiftr_spec in Tc by lia. split; [exact Tc|].
    intros i Hi. destruct (Z.eq_dec i 0) as [->|]; [exact E0|]. specialize (Fc (i-1)). rewrite Z.shiftr_spec in Fc by lia. replace (i-1+1) with i in Fc by lia. apply Fc. lia.
Qed.
Lemma CTZ_spec x j : 0 <= j < 64 -> Z.testbit x j = true ->
  exists c, CTZ x = Ok c /\ 0 <= c <= j /\ Z.testbit x c = true /\ forall i, 0 <= i < c -> Z.testbit x i = false.
Proof. intros. apply ctz_loop_spec; auto. Qed.
Lemma zero_bits x : 0 <= x < 2^64 -> (x = 0 <-> forall b, 0 <= b < 64 -> Z.testbit x b = false).
Proof.
  intros H. split; [intros ->; intros; apply Z.bits_0|]. intros F. apply Z.bits_inj'. intros i Hi. rewrite Z.bits_0.
  destruct (Z.lt_ge_cases i 64); [apply F; lia|apply (range_bits x 64); lia].
Qed.
Lemma nonzero_bit : forall n x, 0 <= x < 2^(Z.of_nat n) -> x <> 0 -> exists b, 0 <= b < Z.of_nat n /\ Z.testbit x b = true.
Proof.
  induction n as [|n IH]; intros x Hx Hn; [change (2 ^ Z.of_nat 0) with 1 in Hx; lia|].
  destruct (Z.testbit x 0) eqn:E; [exists 0; split; [lia|exact E]|].
  destruct (IH (Z.shiftr x 1)) as [b [Hb Tb]].
  - apply shr1_range; [|lia]. replace (Z.of_nat n + 1) with (Z.of_nat (S n)) by lia. exact Hx.
  - rewrite Z.shiftr_div_pow2 by lia. change (2^1) with 2. rewrite Z.bit0_odd in E. assert (X := Zmod_odd x). rewrite E in X. lia.
  - exists (b+1). rewrite Z.shiftr_spec in Tb by lia. split; [lia|exact Tb].
Qed.
Lemma tb_vmask v i : 0 <= i < 64 -> Z.testbit (vmask v) i = negb v.
Proof. intros. unfold vmask. destruct v; [apply Z.bits_0|]. rewrite tb_ones by lia. destruct (Z.ltb_spec i 64); [reflexivity|lia]. Qed.
Lemma vmask_range v : 0 <= vmask v < 2^64.
Proof. destruct v; [cbn; lia|apply ones64_range]. Qed.
Lemma tb_xv m i v b : 0 <= b < 64 -> Z.testbit (Z.lxor (vmask v) (word m i)) b = Bool.eqb (mbit m (64 * i + b)) v.
Proof. intros. rewrite Z.lxor_spec, tb_vmask, mbit_word by lia. destruct v, (Z.testbit (word m i) b); reflexivity. Qed.

Definition none (m : list Z) (v : bool) (a b : Z) : Prop := forall k, a <= k < b -> mbit m k = negb v.
Lemma eqb_false_negb a v : Bool.eqb a v = false -> a = negb v.
Proof. destruct a, v; intros H; try discriminate; reflexivity. Qed.

Lemma find_loop_spec m p v : words m -> 0 <= p -> forall n i, 0 <= i -> p + i + Z.of_nat n <= len m ->
  exists r, find_loop n m p i (vmask v) = Ok r /\
    match r with
    | None => none m v (64 * (p + i)) (64 * (p + i + Z.of_nat n))
    | Some c => 64 * i <= c < 64 * (i + Z.of_nat n) /\ mbit m (64 * p + c) = v /\ none m v (64 * (p + i)) (64 * p + c)
    end.
Proof.
  intros Hw Hp. induction n as [|n IH]; intros i Hi Hl; cbn [find_loop].
  - exists None. split; [reflexivity|]. intros k Hk. lia.
  - rewrite rdz_ok by lia. cbn [bind]. set (f := Z.lxor (vmask v) (word m (p+i))).
    assert (Rf : 0 <= f < 2^64) by (apply lxor_range; [apply vmask_range|apply word_range; auto]).
    destruct (Z.eqb_spec f 0) as [Ef|Nf].
    + assert (Z0 : none m v (64*(p+i)) (64*(p+i)+64)).
      { intros k Hk. apply eqb_false_negb. replace k with (64*(p+i) + (k - 64*(p+i))) by lia. rewrite <- tb_xv by lia. fold f. rewrite Ef. apply Z.bits_0. }
      destruct (IH (i+1)) as [r [E H]]; [lia|lia|]. exists r. split; [exact E|]. destruct r as [c|].
      * destruct H as [A [B C]]. split; [lia|]. split; [exact B|]. intros k Hk. destruct (Z.lt_ge_cases k (64*(p+i)+64)); [apply Z0; lia|apply C; lia].
      * intros k Hk. destruct (Z.lt_ge_cases k (64*(p+i)+64)); [apply Z0; lia|apply H; lia].
    + destruct (nonzero_bit 64 f) as [j [Hj Tj]]; auto. destruct (CTZ_spec f j) as [c [Ec [Hc [Tc Fc]]]]; auto. rewrite Ec. cbn [bind].
      exists (Some (64*i+c)). split; [reflexivity|]. split; [lia|]. split.
      * unfold f in Tc. rewrite tb_xv in Tc by lia. apply eqb_prop in Tc. rewrite <- Tc. f_equal. lia.
      * intros k Hk. apply eqb_false_negb. replace k with (64*(p+i) + (k - 64*(p+i))) by lia. rewrite <- tb_xv by lia. apply Fc. lia.
Qed.

Lemma lor_small a c : 0 <= a -> a mod 64 = 0 -> 0 <= c < 64 -> Z.lor a c = a + c.
Proof. intros Ha Hm Hc. replace a with (a/64 * 2^6) by (change (2^6) with 64; lia). apply lor_disjoint'; [lia|change (2^6) with 64; lia]. Qed.
Lemma tb_ones_shl q b : 0 <= q < 64 -> 0 <= b < 64 -> Z.testbit (shl (Z.ones 64) q) b = (q <=? b).
Proof.
  intros. rewrite tb_shl by lia. destruct (Z.leb_spec q b).
  - rewrite tb_ones by lia. destruct (Z.ltb_spec (b-q) 64), (Z.ltb_spec b 64); reflexivity || lia.
  - rewrite Z.testbit_neg_r by lia. reflexivity.
Qed.

(** the first v among the ia bits at word p *)
Definition is_first (m : list Z) (p ia : Z) (v : bool) (i : Z) : Prop :=
  0 <= i <= ia /\ none m v (64 * p) (64 * p + i) /\ (i < ia -> mbit m (64 * p + i) = v).
Lemma bit_find_spec m p ia v : words m -> 0 <= p -> 0 <= ia -> p + ia / 64 < len m ->
  exists i, bit_find m p ia v = Ok i /\ is_first m p ia v i.
Proof.
  intros Hw Hp Hia Hl. unfold bit_find.
  destruct (find_loop_spec m p v Hw Hp (Z.to_nat (ia/64)) 0) as [r [E H]]; [lia|lia|]. rewrite E. cbn [bind]. destruct r as [c|].
  - destruct H as [A [B C]]. exists c. split; [reflexivity|]. split; [lia|]. split; [intros k Hk; apply C; lia|intros _; exact B].
  - rewrite rdz_ok by lia. cbn [bind].
    assert (TB : forall b, 0 <= b < 64 -> Z.testbit (Z.lor (Z.lxor (vmask v) (word m (p + ia/64))) (shl (Z.ones 64) (ia mod 64))) b = Bool.eqb (mbit m (64 * (p + ia/64) + b)) v || (ia mod 64 <=? b)).
    { intros b Hb. rewrite Z.lor_spec, tb_xv, tb_ones_shl by lia. reflexivity. }
    destruct (CTZ_spec (Z.lor (Z.lxor (vmask v) (word m (p + ia/64))) (shl (Z.ones 64) (ia mod 64))) (ia mod 64)) as [c [Ec [Hc [Tc Fc]]]]; [lia|rewrite TB by lia; destruct (Z.leb_spec (ia mod 64) (ia mod 64)); [apply orb_true_r|lia]|].
    rewrite Ec. cbn [bind]. rewrite lor_small by lia. eexists. split; [reflexivity|]. split; [lia|]. split.
    + intros k Hk. destruct (Z.lt_ge_cases k (64*(p+ia/64))); [apply H; lia|]. apply eqb_false_negb.
      specialize (Fc (k - 64*(p+ia/64))). rewrite TB in Fc by lia. replace (64*(p+ia/64)+(k-64*(p+ia/64))) with k in Fc by lia.
      destruct (Bool.eqb (mbit m k) v); [|reflexivity]. cbn [orb] in Fc. assert (X : true = false) by (apply Fc; lia). exact X.
    + intros Hlt. rewrite TB in Tc by lia. destruct (Z.leb_spec (ia mod 64) c); [lia|]. rewrite orb_false_r in Tc. apply eqb_prop in Tc.
      rewrite <- Tc. f_equal. lia.
Qed.

(** * has *)
Lemma has_loop_spec m v : words m -> forall n i, 0 <= i -> i + Z.of_nat n <= len m ->
  exists b, has_loop n m i (vmask v) = Ok b /\ (b = true <-> exists k, 64 * i <= k < 64 * (i + Z.of_nat n) /\ mbit m k = v).
Proof.
  intros Hw. induction n as [|n IH]; intros i Hi Hl; cbn [has_loop].
  - exists false. split; [reflexivity|]. split; [discriminate|]. intros [k [Hk _]]. lia.
  - rewrite rdz_ok by lia. cbn [bind]. set (f := Z.lxor (word m i) (vmask v)).
    assert (Rf : 0 <= f < 2^64) by (apply lxor_range; [apply word_range; auto|apply vmask_range]).
    assert (TB : forall b, 0 <= b < 64 -> Z.testbit f b = Bool.eqb (mbit m (64*i+b)) v) by (intros b Hb; unfold f; rewrite Z.lxor_comm; apply tb_xv; lia).
    destruct (Z.eqb_spec f 0) as [Ef|Nf].
    + destruct (IH (i+1)) as [b [E H]]; [lia|lia|]. exists b. split; [exact E|]. rewrite H. split; intros [k [Hk Hm]]; exists k; (split; [|exact Hm]); [lia|].
      destruct (Z.lt_ge_cases k (64*(i+1))); [|lia]. specialize (TB (k-64*i)). replace (64*i+(k-64*i)) with k in TB by lia. rewrite Ef, Z.bits_0, Hm, eqb_reflx in TB.
      assert (X : false = true) by (apply TB; lia). discriminate.
    + exists true. split; [reflexivity|]. split; [intros _|auto]. destruct (nonzero_bit 64 f) as [j [Hj Tj]]; auto. rewrite TB in Tj by lia.
      exists (64*i+j). split; [lia|]. apply eqb_prop. exact Tj.
Qed.
Lemma bit_has_spec m p ia v : words m -> 0 <= p -> 0 <= ia -> 64 * p + ia <= 64 * len m ->
  exists b, bit_has m p ia v = Ok b /\ (b = true <-> exists k, 64 * p <= k < 64 * p + ia /\ mbit m k = v).
Proof.
  intros Hw Hp Hia Hl. unfold bit_has. destruct (has_loop_spec m v Hw (Z.to_nat (ia/64)) p) as [b [E H]]; [lia|lia|]. rewrite E. cbn [bind]. destruct b.
  - exists true. split; [reflexivity|]. split; [intros _|auto]. destruct H as [H _]. destruct (H eq_refl) as [k [Hk Hm]]. exists k. split; [lia|exact Hm].
  - assert (Hno : forall k, 64*p <= k < 64*(p+ia/64) -> mbit m k <> v) by (intros k Hk Hm; assert (X : false = true) by (apply H; exists k; split; [lia|exact Hm]); discriminate).
    destruct (Z.eqb_spec (ia mod 64) 0) as [Eq|Nq].
    + exists false. split; [reflexivity|]. split; [discriminate|]. intros [k [Hk Hm]]. exfalso. apply (Hno k); [lia|exact Hm].
    + rewrite rdz_ok by lia. cbn [bind]. eexists. split; [reflexivity|]. rewrite shl1m by lia.
      set (f := Z.land (Z.lxor (word m (p+ia/64)) (vmask v)) (Z.ones (ia mod 64))).
      assert (Rf : 0 <= f < 2^64) by (apply land_range, lxor_range; [apply word_range; auto|apply vmask_range]).
      assert (TB : forall b, 0 <= b < 64 -> Z.testbit f b = Bool.eqb (mbit m (64*(p+ia/64)+b)) v && (b <? ia mod 64)).
      { intros b Hb. unfold f. rewrite Z.land_spec, Z.lxor_comm, tb_xv, tb_ones by lia. reflexivity. }
      destruct (Z.eqb_spec f 0) as [Ef|Nf]; cbn [negb].
      * split; [discriminate|]. intros [k [Hk Hm]]. exfalso. destruct (Z.lt_ge_cases k (64*(p+ia/64))); [apply (Hno k); [lia|exact Hm]|].
        specialize (TB (k-64*(p+ia/64))). replace (64*(p+ia/64)+(k-64*(p+ia/64))) with k in TB by lia. rewrite Ef, Z.bits_0, Hm, eqb_reflx in TB.
        destruct (Z.ltb_spec (k-64*(p+ia/64)) (ia mod 64)); [|lia]. assert (X : false = true) by (apply TB; lia). discriminate.
      * split; [intros _|auto]. destruct (nonzero_bit 64 f) as [j [Hj Tj]]; auto. rewrite TB in Tj by lia. apply andb_true_iff in Tj. destruct Tj as [T1 T2].
        apply Z.ltb_lt in T2. exists (64*(p+ia/64)+j). split; [lia|]. apply eqb_prop. exact T1.
Qed.

(** * sums *)
Definition bitsat (m : list Z) (k : Z) (n : nat) : list bool := map (fun i => mbit m (k + Z.of_nat i)) (seq 0 n).
Lemma bits_of_at m p n : bits_of m p n = bitsat m (64 * p) (Z.to_nat n).
Proof. reflexivity. Qed.
Lemma seq_shift_add : forall n s k, seq (s + k) n = map (fun i => (k + i)%nat) (seq s n).
Proof. induction n as [|n IH]; intros s k; cbn; [reflexivity|]. f_equal; [lia|]. rewrite <- IH. reflexivity. Qed.
Lemma bitsat_app m k a b : bitsat m k (a + b) = bitsat m k a ++ bitsat m (k + Z.of_nat a) b.
Proof.
  unfold bitsat. rewrite seq_app, map_app. f_equal. rewrite Nat.add_0_l. replace a with (0 + a)%nat at 1 by lia. rewrite seq_shift_add, map_map. apply map_ext. intros i. f_equal. lia.
Qed.
Lemma count_app a b : count_true (a ++ b) = count_true a + count_true b.
Proof. induction a as [|h t IH]; cbn [count_true app]; [lia|]. rewrite IH. lia. Qed.
Lemma fold_count (f : nat -> bool) : forall l acc, fold_left (fun s i => s + (if f i then 1 else 0)) l acc = acc + count_true (map f l).
Proof. induction l as [|h t IH]; intros acc; cbn [fold_left map count_true]; [lia|]. rewrite IH. lia. Qed.
Lemma POPC_spec x : POPC x = count_true (map (fun i => Z.testbit x (Z.of_nat i)) (seq 0 64)).
Proof. unfold POPC. rewrite fold_count. lia. Qed.
Lemma POPC_word m i : POPC (word m i) = count_true (bitsat m (64 * i) 64).
Proof. rewrite POPC_spec. f_equal. apply map_ext_in. intros a Ha. apply in_seq in Ha. symmetry. apply mbit_word. lia. Qed.
Lemma count_false (f : nat -> bool) l : (forall i, In i l -> f i = false) -> count_true (map f l) = 0.
Proof. induction l as [|h t IH]; intros H; cbn; [reflexivity|]. rewrite (H h) by (left; reflexivity). rewrite IH; [reflexivity|]. intros i Hi. apply H. right. exact Hi. Qed.
Lemma POPC_tail m i q : 0 < q < 64 -> POPC (shl (word m i) (64 - q)) = count_true (bitsat m (64 * i) (Z.to_nat q)).
Proof.
  intros Hq. rewrite POPC_spec. replace 64%nat with (Z.to_nat (64-q) + Z.to_nat q)%nat by lia. rewrite seq_app, map_app, count_app, count_false.
  - rewrite Z.add_0_l. f_equal. rewrite seq_shift_add, map_map. unfold bitsat. apply map_ext_in. intros a Ha. apply in_seq in Ha.
    rewrite tb_shl by lia. destruct (Z.ltb_spec (Z.of_nat (Z.to_nat (64-q) + a)) 64); [|lia]. rewrite andb_true_r, mbit_word by lia. f_equal. lia.
  - intros a Ha. apply in_seq in Ha. rewrite tb_shl, Z.testbit_neg_r by lia. reflexivity.
Qed.
Lemma sum_loop_spec m : forall n p r, 0 <= p -> p + Z.of_nat n <= len m -> sum_loop n m p r = Ok (r + count_true (bitsat m (64 * p) (64 * n))).
Proof.
  induction n as [|n IH]; intros p r Hp Hl; cbn [sum_loop]; [cbn; f_equal; lia|]. rewrite rdz_ok by lia. cbn [bind]. rewrite IH by lia. f_equal.
  replace (64 * S n)%nat with (64 + 64 * n)%nat by lia. rewrite bitsat_app, count_app, POPC_word. replace (64 * p + Z.of_nat 64) with (64 * (p + 1)) by lia. lia.
Qed.
Lemma bit_sum_spec m p am : 0 <= p -> 0 <= am -> 64 * p + am <= 64 * len m -> bit_sum m p am = Ok (count_true (bits_of m p am)).
Proof.
  intros Hp Ham Hl. unfold bit_sum. rewrite shr6, land63, land63, sum_loop_spec by lia. cbn [bind]. rewrite bits_of_at.
  destruct (Z.eqb_spec (am mod 64) 0) as [E|N].
  - f_equal. replace (64 * Z.to_nat (am/64))%nat with (Z.to_nat am) by lia. lia.
  - rewrite rdz_ok by lia. cbn [bind]. f_equal. replace (Z.to_nat am) with (64 * Z.to_nat (am/64) + Z.to_nat (am mod 64))%nat by lia.
    rewrite bitsat_app, count_app. replace ((64-am) mod 64) with (64 - am mod 64) by lia. rewrite POPC_tail by lia.
    replace (64 * p + Z.of_nat (64 * Z.to_nat (am/64))) with (64 * (p + am/64)) by lia. lia.
Qed.

(** * first index *)
Lemma first_index_spec m v : forall n k i, 0 <= i <= Z.of_nat n -> none m v k (k + i) -> (i < Z.of_nat n -> mbit m (k+i) = v) -> first_index v (bitsat m k n) = i.
Proof.
  induction n as [|n IH]; intros k i Hi Hn Hv; [cbn; lia|].
  change (S n) with (1 + n)%nat. rewrite bitsat_app. change (bitsat m k 1) with [mbit m (k + Z.of_nat 0)]. cbn [app first_index]. change (Z.of_nat 0) with 0. change (Z.of_nat 1) with 1. rewrite Z.add_0_r.
  destruct (Z.eq_dec i 0) as [->|N].
  - rewrite Z.add_0_r in Hv. rewrite Hv by lia. rewrite eqb_reflx. reflexivity.
  - rewrite Hn by lia. assert (X : Bool.eqb (negb v) v = false) by (destruct v; reflexivity). rewrite X. clear X. rewrite (IH (k+1) (i-1)); [lia|lia| |].
    + intros j Hj. apply Hn. lia.
    + intros Hlt. rewrite <- Hv by lia. f_equal. lia.
Qed.
Lemma bit_find_first m p ia v : words m -> 0 <= p -> 0 <= ia -> p + ia / 64 < len m -> bit_find m p ia v = Ok (first_index v (bits_of m p ia)).
Proof.
  intros. destruct (bit_find_spec m p ia v) as [i [E [A [B C]]]]; auto. rewrite E. f_equal. symmetry. rewrite bits_of_at. apply first_index_spec; [lia|exact B|]. intros; apply C; lia.
Qed.
Lemma nth_bits_of m p n i : nth_error (bits_of m p n) i = if Z.of_nat i <? n then Some (mbit m (64*p+Z.of_nat i)) else None.
Proof.
  unfold bits_of. destruct (Z.ltb_spec (Z.of_nat i) n).
  - rewrite nth_error_map. rewrite (nth_error_nth' _ 0%nat) by (rewrite seq_length; lia). cbn [option_map]. rewrite seq_nth by lia. reflexivity.
  - apply nth_error_None. rewrite map_length, seq_length. lia.
Qed.
Lemma in_bits_of m p n v : In v (bits_of m p n) <-> exists k, 64 * p <= k < 64 * p + n /\ mbit m k = v.
Proof.
  unfold bits_of. rewrite in_map_iff. split.
  - intros [i [E Hi]]. apply in_seq in Hi. exists (64*p+Z.of_nat i). split; [lia|exact E].
  - intros [k [Hk E]]. exists (Z.to_nat (k-64*p)). split; [rewrite <- E; f_equal; lia|apply in_seq; lia].
Qed.

(** * sortedness *)
Lemma ordered_iff m p n down i : is_first m p n (negb down) i ->
  (ordered down (bits_of m p n) <-> none m down (64 * p + i) (64 * p + n)).
Proof.
  intros [Hi [Hn Hv]]. split.
  - intros Ho k Hk. destruct (Z.eq_dec k (64*p+i)) as [->|N]; [apply Hv; lia|].
    specialize (Ho (Z.to_nat i) (Z.to_nat (k - 64*p)) (negb down) (mbit m k)). rewrite !nth_bits_of in Ho.
    destruct (Z.ltb_spec (Z.of_nat (Z.to_nat i)) n); [|lia]. destruct (Z.ltb_spec (Z.of_nat (Z.to_nat (k-64*p))) n); [|lia].
    replace (64*p+Z.of_nat (Z.to_nat i)) with (64*p+i) in Ho by lia. replace (64*p+Z.of_nat (Z.to_nat (k-64*p))) with k in Ho by lia. rewrite Hv in Ho by lia.
    assert (X := Ho ltac:(lia) eq_refl eq_refl). destruct down; cbn in *; auto.
  - intros Hd a b x y Hab Hx Hy. rewrite nth_bits_of in Hx, Hy. destruct (Z.ltb_spec (Z.of_nat a) n); [|discriminate]. destruct (Z.ltb_spec (Z.of_nat b) n); [|discriminate].
    injection Hx as Hx. injection Hy as Hy. destruct (Z.lt_ge_cases (Z.of_nat b) i) as [L|G].
    + assert (X := Hn (64*p+Z.of_nat a) ltac:(lia)). destruct down; cbn in X; congruence.
    + assert (X := Hd (64*p+Z.of_nat b) ltac:(lia)). destruct down; cbn in X; intros _; congruence.
Qed.

Lemma bit_isSorted_spec m p down n : words m -> 0 <= p -> 0 <= n -> p + (n + 1) / 64 < len m ->
  exists b, bit_isSorted m p down n = Ok b /\ (b = true <-> ordered down (bits_of m p (n + 1))).
Proof.
  intros Hw Hp Hn Hl. unfold bit_isSorted. set (xia := n + 1) in *.
  destruct (bit_find_spec m p xia (negb down)) as [i [E Hf]]; [exact Hw|exact Hp|lia|lia|]. rewrite E. cbn [bind].
  assert (Hf' := Hf). destruct Hf' as [Hi [Hno Hat]]. rewrite rdz_ok by lia. cbn [bind].
  set (d := Z.lxor (if down then not64 (word m (p + i/64)) else word m (p + i/64)) (shl (Z.ones 64) (i mod 64))).
  assert (Rd : 0 <= d < 2^64) by (apply lxor_range; [destruct down; [apply not64_range|]; apply word_range; auto|apply shl_range]).
  assert (TB : forall b, 0 <= b < 64 -> Z.testbit d b = xorb (xorb down (mbit m (64*(p+i/64)+b))) (i mod 64 <=? b)).
  { intros b Hb. unfold d. rewrite Z.lxor_spec, tb_ones_shl, mbit_word by lia. f_equal. destruct down; [|destruct (Z.testbit (word m (p+i/64)) b); reflexivity].
    rewrite tb_not64 by lia. destruct (Z.ltb_spec b 64); [|lia]. destruct (Z.testbit (word m (p+i/64)) b); reflexivity. }
  assert (TBlow : forall b, 0 <= b < i mod 64 -> Z.testbit d b = false).
  { intros b Hb. rewrite TB by lia. rewrite Hno by lia. destruct (Z.leb_spec (i mod 64) b); [lia|]. destruct down; reflexivity. }
  assert (TBhi : forall b, i mod 64 <= b < 64 -> (Z.testbit d b = false <-> mbit m (64*(p+i/64)+b) = negb down)).
  { intros b Hb. rewrite TB by lia. destruct (Z.leb_spec (i mod 64) b); [|lia]. destruct down, (mbit m (64*(p+i/64)+b)); cbn; split; congruence. }
  destruct (Z.eqb_spec (i/64) (xia/64)) as [Ew|Nw].
  - eexists. split; [reflexivity|]. rewrite (ordered_iff m p xia down i Hf), Z.eqb_eq, zero_bits by (apply land_range; exact Rd). split.
    + intros H k Hk. specialize (H (k - 64*(p+i/64))). rewrite Z.land_spec, tb_not64, tb_ones_shl in H by lia.
      destruct (Z.ltb_spec (k-64*(p+i/64)) 64); [|lia]. destruct (Z.leb_spec (xia mod 64) (k-64*(p+i/64))); [lia|]. cbn [xorb] in H. rewrite andb_true_r in H.
      specialize (H ltac:(lia)). apply TBhi in H; [|lia]. rewrite <- H. f_equal. lia.
    + intros H b Hb. rewrite Z.land_spec, tb_not64, tb_ones_shl by lia. destruct (Z.ltb_spec b 64); [|lia]. destruct (Z.leb_spec (xia mod 64) b); cbn; [apply andb_false_r|]. rewrite andb_true_r.
      destruct (Z.lt_ge_cases b (i mod 64)); [apply TBlow; lia|]. apply TBhi; [lia|]. apply H. lia.
  - destruct (Z.eqb_spec d 0) as [Ed|Nd].
    + destruct (bit_find_spec m (p + (i/64+1)) (xia - 64*(i/64+1)) down) as [j [Ej [Hj [Jn Jat]]]]; [exact Hw|lia|lia|lia|]. rewrite Ej. cbn [bind].
      eexists. split; [reflexivity|]. rewrite (ordered_iff m p xia down i Hf), Z.eqb_eq. split.
      * intros -> k Hk. destruct (Z.lt_ge_cases k (64*(p+(i/64+1)))) as [L|G].
        -- replace k with (64*(p+i/64) + (k - 64*(p+i/64))) by lia. apply TBhi; [lia|]. rewrite Ed. apply Z.bits_0.
        -- apply Jn. lia.
      * intros H. destruct (Z.eq_dec j (xia - 64*(i/64+1))) as [|Nj]; [assumption|]. assert (X := Jat ltac:(lia)). rewrite H in X by lia. destruct down; discriminate.
    + eexists. split; [reflexivity|]. rewrite (ordered_iff m p xia down i Hf). split; [discriminate|]. intros H. exfalso. apply Nd. apply zero_bits; [exact Rd|].
      intros b Hb. destruct (Z.lt_ge_cases b (i mod 64)); [apply TBlow; lia|]. apply TBhi; [lia|]. apply H. lia.
Qed.
