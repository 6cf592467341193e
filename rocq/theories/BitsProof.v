From Verif Require Import Base BitLemmas BitsModel BitsSpec.

Lemma tb_ones k i : 0 <= k -> 0 <= i -> Z.testbit (Z.ones k) i = (i <? k).
Proof. intros. rewrite Z.testbit_ones by lia. destruct (Z.leb_spec 0 i), (Z.ltb_spec i k); cbn; reflexivity || lia. Qed.
Lemma tb_w64 x i : 0 <= i -> Z.testbit (w64 x) i = Z.testbit x i && (i <? 64).
Proof. intros. unfold w64. rewrite Z.land_spec, tb_ones by lia. reflexivity. Qed.
Lemma tb_not64 x i : 0 <= i -> Z.testbit (not64 x) i = xorb (Z.testbit x i) (i <? 64).
Proof. intros. unfold not64. rewrite Z.lxor_spec, tb_ones by lia. reflexivity. Qed.
Lemma tb_shl x k i : 0 <= i -> Z.testbit (shl x k) i = Z.testbit x (i - k) && (i <? 64).
Proof. intros. unfold shl. rewrite tb_w64, Z.shiftl_spec by lia. reflexivity. Qed.

Lemma bits_range x n : 0 <= n -> (forall i, n <= i -> Z.testbit x i = false) -> 0 <= x < 2 ^ n.
Proof.
  intros Hn H. assert (E : x = x mod 2^n).
  { apply Z.bits_inj'. intros i Hi. destruct (Z.lt_ge_cases i n); [rewrite Z.mod_pow2_bits_low by lia; reflexivity|rewrite Z.mod_pow2_bits_high by lia; apply H; lia]. }
  rewrite E. apply Z.mod_pos_bound. apply Z.pow_pos_nonneg; lia.
Qed.
Lemma range_bits x n i : 0 <= x < 2^n -> n <= i -> 0 <= n -> Z.testbit x i = false.
Proof. intros H Hi Hn. rewrite <- (Z.mod_small x (2^n)) by lia. apply Z.mod_pow2_bits_high. lia. Qed.
Lemma w64_range x : 0 <= w64 x < 2^64.
Proof. apply bits_range; [lia|]. intros i Hi. rewrite tb_w64 by lia. destruct (Z.ltb_spec i 64); [lia|]. apply andb_false_r. Qed.
Lemma shl_range x k : 0 <= shl x k < 2^64.
Proof. apply w64_range. Qed.
Lemma not64_range x : 0 <= x < 2^64 -> 0 <= not64 x < 2^64.
Proof. intros H. apply bits_range; [lia|]. intros i Hi. rewrite tb_not64 by lia. rewrite (range_bits x 64) by lia. destruct (Z.ltb_spec i 64); [lia|reflexivity]. Qed.
Lemma lor_range x y : 0 <= x < 2^64 -> 0 <= y < 2^64 -> 0 <= Z.lor x y < 2^64.
Proof. intros. apply bits_range; [lia|]. intros i Hi. rewrite Z.lor_spec, (range_bits x 64), (range_bits y 64) by lia. reflexivity. Qed.
Lemma land_range x y : 0 <= x < 2^64 -> 0 <= Z.land x y < 2^64.
Proof. intros. apply bits_range; [lia|]. intros i Hi. rewrite Z.land_spec, (range_bits x 64) by lia. reflexivity. Qed.
Lemma lxor_range x y : 0 <= x < 2^64 -> 0 <= y < 2^64 -> 0 <= Z.lxor x y < 2^64.
Proof. intros. apply bits_range; [lia|]. intros i Hi. rewrite Z.lxor_spec, (range_bits x 64), (range_bits y 64) by lia. reflexivity. Qed.
Lemma ones64_range : 0 <= Z.ones 64 < 2^64.
Proof. cbn. lia. Qed.

Lemma shl1 k : 0 <= k < 64 -> shl 1 k = 2^k.
Proof.
  intros H. apply Z.bits_inj'. intros i Hi. rewrite tb_shl by lia.
  destruct (Z.eq_dec i k) as [->|N].
  - rewrite Z.sub_diag, Z.pow2_bits_true by lia. destruct (Z.ltb_spec k 64); [reflexivity|lia].
  - rewrite Z.pow2_bits_false by lia. replace (Z.testbit 1 (i-k)) with false; [reflexivity|]. symmetry.
    change 1 with (2^0). apply Z.pow2_bits_false. lia.
Qed.
Lemma shl1m k : 0 <= k < 64 -> shl 1 k - 1 = Z.ones k.
Proof. intros H. rewrite shl1 by lia. rewrite Z.ones_equiv. lia. Qed.
Lemma land63 x : Z.land x 63 = x mod 64.
Proof. change 63 with (Z.ones 6). rewrite Z.land_ones by lia. reflexivity. Qed.
Lemma shr6 x : Z.shiftr x 6 = x / 64.
Proof. rewrite Z.shiftr_div_pow2 by lia. reflexivity. Qed.

(** words of the memory *)
Definition word (m : list Z) (i : Z) : Z := nth (Z.to_nat i) m 0.
Definition len (m : list Z) : Z := Z.of_nat (length m).
Lemma rdz_ok m i : 0 <= i < len m -> rdz m i = Ok (word m i).
Proof.
  intros H. unfold rdz, rd, word. destruct (Z.ltb_spec i 0); [lia|]. unfold len in H.
  rewrite (nth_error_nth' m 0) by lia. reflexivity.
Qed.
Lemma wrz_ok m i v : 0 <= i < len m -> wrz m i v = Ok (upd m (Z.to_nat i) v).
Proof.
  intros H. unfold wrz, wr. destruct (Z.ltb_spec i 0); [lia|]. unfold len in H. destruct (Nat.ltb_spec (Z.to_nat i) (length m)); [reflexivity|lia].
Qed.
Lemma len_upd m i v : len (upd m i v) = len m.
Proof. unfold len. rewrite upd_length. reflexivity. Qed.
Lemma word_upd m i j v : 0 <= i < len m -> 0 <= j -> word (upd m (Z.to_nat i) v) j = if j =? i then v else word m j.
Proof.
  intros Hi Hj. unfold word. destruct (Z.eqb_spec j i) as [->|N].
  - apply nth_error_nth. apply upd_same. unfold len in Hi. lia.
  - destruct (nth_error m (Z.to_nat j)) eqn:E.
    + rewrite (nth_error_nth _ _ _ E). apply nth_error_nth. rewrite upd_other by lia. exact E.
    + apply nth_error_None in E. rewrite !nth_overflow; try rewrite upd_length; auto.
Qed.
Lemma word_range m i : words m -> 0 <= word m i < 2^64.
Proof.
  intros H. unfold word. destruct (nth_in_or_default (Z.to_nat i) m 0) as [Hin| ->]; [|lia]. unfold words in H. rewrite Forall_forall in H. apply H. exact Hin.
Qed.
Lemma words_upd m i v : words m -> 0 <= v < 2^64 -> words (upd m i v).
Proof. unfold words. intros H Hv. revert i. induction H as [|a m Ha H IH]; intros i; [destruct i; constructor|]. destruct i; cbn; constructor; auto. Qed.

Lemma mbit_word m i b : 0 <= b < 64 -> mbit m (64 * i + b) = Z.testbit (word m i) b.
Proof. intros H. unfold mbit, word. replace ((64*i+b)/64) with i by lia. replace ((64*i+b) mod 64) with b by lia. reflexivity. Qed.
Lemma mbit_split m k : mbit m k = Z.testbit (word m (k/64)) (k mod 64).
Proof. reflexivity. Qed.
Lemma mbit_upd m i v k : 0 <= i < len m -> 0 <= k -> mbit (upd m (Z.to_nat i) v) k = if k / 64 =? i then Z.testbit v (k mod 64) else mbit m k.
Proof. intros. rewrite !mbit_split, word_upd by lia. destruct (k/64 =? i); reflexivity. Qed.

(** unaligned read *)
Lemma READ_spec m x ti dp df : words m -> 0 <= df < 64 -> 0 <= x + (ti + dp) -> x + (ti + dp) < len m -> (df <> 0 -> x + (ti + dp) + 1 < len m) ->
  exists v, READ x dp df m ti = Ok v /\ 0 <= v < 2^64 /\ forall b, 0 <= b < 64 -> Z.testbit v b = mbit m (64 * (x + ti) + b + (64 * dp + df)).
Proof.
  intros Hw Hdf H0 H1 H2. unfold READ, RDFp, RDFo. destruct (Z.eqb_spec df 0) as [->|N].
  - rewrite rdz_ok by lia. eexists. split; [reflexivity|]. split; [apply word_range; exact Hw|]. intros b Hb.
    replace (64*(x+ti)+b+(64*dp+0)) with (64*(x+(ti+dp+0))+b) by lia. rewrite mbit_word by lia. reflexivity.
  - rewrite !rdz_ok by lia. cbn [bind]. eexists. split; [reflexivity|]. split.
    + apply lor_range; [|apply shl_range]. rewrite Z.shiftr_div_pow2 by lia. assert (X := word_range m (x+(ti+dp+0)) Hw).
      assert (0 < 2^df) by (apply Z.pow_pos_nonneg; lia). split; [apply Z.div_pos; lia|]. apply Z.div_lt_upper_bound; [lia|]. nia.
    + intros b Hb. rewrite Z.lor_spec, Z.shiftr_spec, tb_shl by lia. destruct (Z.ltb_spec b 64); [|lia]. rewrite andb_true_r.
      destruct (Z.lt_ge_cases (b + df) 64) as [L|G].
      * replace (64*(x+ti)+b+(64*dp+df)) with (64*(x+(ti+dp+0))+(b+df)) by lia. rewrite mbit_word by lia.
        rewrite (Z.testbit_neg_r _ (b - (64-df))) by lia. apply orb_false_r.
      * replace (64*(x+ti)+b+(64*dp+df)) with (64*(x+(ti+dp+1))+(b-(64-df))) by lia. rewrite mbit_word by lia.
        rewrite (range_bits (word m (x+(ti+dp+0))) 64 (b+df)) by (try apply word_range; auto; lia). reflexivity.
Qed.

Section Cpy.
Variables (m0 : list Z) (r rs x xs l : Z).
Let D := 64 * r + rs.
Let S_ := 64 * x + xs.
Let d := xs - rs.
Let dp := d / 64.
Let df := d mod 64.
Hypothesis Hrs : 0 <= rs. Hypothesis Hxs : 0 <= xs. Hypothesis Hl : 0 <= l. Hypothesis Hr : 0 <= r. Hypothesis Hx : 1 <= x.
Hypothesis Hd : D + l <= 64 * len m0.
Hypothesis Hs : S_ + l + 64 <= 64 * len m0.
Hypothesis Hdis : D <= S_ \/ S_ + l <= D.

Definition cpd (m : list Z) (e : Z) : Prop :=
  len m = len m0 /\ words m /\ forall k, 0 <= k -> mbit m k = if (D <=? k) && (k <? e) then mbit m0 (k - D + S_) else mbit m0 k.

(** one written word, covering the target bits e..e'-1 *)
Lemma step_word m ti e e' v nv : cpd m e -> D <= e -> e <= e' -> e' <= D + l -> 64 * (r + ti) <= e -> e' <= 64 * (r + ti) + 64 -> 0 <= ti -> e < e' ->
  READ x dp df m ti = Ok v -> (forall b, 0 <= b < 64 -> Z.testbit v b = mbit m (64 * (x + ti) + b + (64 * dp + df))) -> 0 <= nv < 2^64 ->
  (forall b, 0 <= b < 64 -> Z.testbit nv b = if (e <=? 64 * (r + ti) + b) && (64 * (r + ti) + b <? e') then Z.testbit v b else Z.testbit (word m (r + ti)) b) ->
  cpd (upd m (Z.to_nat (r + ti)) nv) e'.
Proof.
  intros [Hlen [Hw Hm]] He1 He2 He3 Hi1 Hi2 Hti Hlt _ Hv Hnv Hb. split; [rewrite len_upd; exact Hlen|]. split; [apply words_upd; assumption|].
  intros k Hk. assert (Hin : 0 <= r + ti < len m) by (rewrite Hlen; lia). rewrite mbit_upd by assumption.
  destruct (Z.eqb_spec (k/64) (r+ti)) as [Ek|Nk].
  - rewrite Hb by (apply Z.mod_pos_bound; lia). assert (Ekk : 64 * (r+ti) + k mod 64 = k) by lia. rewrite Ekk.
    destruct (Z.leb_spec e k) as [L1|L1]; [destruct (Z.ltb_spec k e') as [L2|L2]|]; cbn [andb].
    + destruct (Z.leb_spec D k); [|lia]. cbn [andb]. rewrite Hv by (apply Z.mod_pos_bound; lia).
      replace (64 * (x + ti) + k mod 64 + (64*dp+df)) with (k - D + S_) by (unfold dp, df, D, S_, d in *; lia).
      rewrite Hm by (unfold D, S_ in *; lia). destruct (Z.leb_spec D (k - D + S_)); cbn [andb]; [|reflexivity]. destruct (Z.ltb_spec (k - D + S_) e); [|reflexivity]. lia.
    + replace (Z.testbit (word m (r+ti)) (k mod 64)) with (mbit m k) by (rewrite mbit_split, Ek; reflexivity). rewrite Hm by lia.
      destruct (Z.leb_spec D k); cbn [andb]; [|reflexivity]. destruct (Z.ltb_spec k e); [lia|reflexivity].
    + replace (Z.testbit (word m (r+ti)) (k mod 64)) with (mbit m k) by (rewrite mbit_split, Ek; reflexivity). rewrite Hm by lia.
      destruct (Z.leb_spec D k); cbn [andb]; [|reflexivity]. destruct (Z.ltb_spec k e), (Z.ltb_spec k e'); try lia; reflexivity.
  - rewrite Hm by lia. destruct (Z.leb_spec D k); cbn [andb]; [|reflexivity]. destruct (Z.ltb_spec k e), (Z.ltb_spec k e'); try lia; reflexivity.
Qed.

Lemma read_here m e ti : cpd m e -> 0 <= ti -> 64 * ti < rs + l -> rs < 64 * ti + 64 -> 0 < l ->
  exists v, READ x dp df m ti = Ok v /\ 0 <= v < 2^64 /\ forall b, 0 <= b < 64 -> Z.testbit v b = mbit m (64 * (x + ti) + b + (64 * dp + df)).
Proof.
  intros [Hlen [Hw _]] H1 H2 H3 H4. apply READ_spec; auto; try rewrite Hlen; unfold dp, df, d, D, S_ in *; lia.
Qed.

Lemma full_loop : forall n m ti, cpd m (64 * (r + ti)) -> D <= 64 * (r + ti) -> 0 <= ti -> rs <= 64 * ti -> 64 * (r + ti + Z.of_nat n) <= D + l ->
  exists m', cpy_loop x dp df n m r ti = Ok m' /\ cpd m' (64 * (r + ti + Z.of_nat n)).
Proof.
  induction n as [|n IH]; intros m ti Hc H1 H2 H2' H3; cbn [cpy_loop].
  - exists m. split; [reflexivity|]. replace (r + ti + Z.of_nat 0) with (r + ti) by lia. exact Hc.
  - destruct (read_here m (64 * (r + ti)) ti Hc) as [v [E [Rv Bv]]]; [lia|unfold D in *; lia|lia|unfold D in *; lia|]. rewrite E. cbn [bind].
    assert (Hc' := Hc). destruct Hc' as [Hlen [Hw _]]. rewrite wrz_ok by (rewrite Hlen; lia). cbn [bind].
    destruct (IH (upd m (Z.to_nat (r + ti)) v) (ti + 1)) as [m' [E' C']].
    + replace (64 * (r + (ti + 1))) with (64 * (r + ti) + 64) by lia. eapply step_word; try eassumption; try lia.
      intros b Hb. destruct (Z.leb_spec (64*(r+ti)) (64*(r+ti)+b)); [|lia]. destruct (Z.ltb_spec (64*(r+ti)+b) (64*(r+ti)+64)); [reflexivity|lia].
    + lia.
    + lia.
    + lia.
    + lia.
    + exists m'. split; [exact E'|]. replace (r + ti + Z.of_nat (S n)) with (r + (ti + 1) + Z.of_nat n) by lia. exact C'.
Qed.

Lemma blend_step m ti e e' mask : cpd m e -> D <= e -> e < e' -> e' <= D + l -> 64 * (r + ti) <= e -> e' <= 64 * (r + ti) + 64 -> 0 <= ti -> 0 <= mask < 2^64 ->
  (forall b, 0 <= b < 64 -> Z.testbit mask b = (e <=? 64 * (r + ti) + b) && (64 * (r + ti) + b <? e')) ->
  exists m', blend x dp df m r ti mask = Ok m' /\ cpd m' e'.
Proof.
  intros Hc H1 H2 H3 H4 H5 H6 Hm Hb. assert (Hc' := Hc). destruct Hc' as [Hlen [Hw _]]. unfold blend.
  destruct (read_here m e ti Hc) as [v [E [Rv Bv]]]; [lia|unfold D in *; lia|unfold D in *; lia|lia|]. rewrite E. cbn [bind].
  rewrite rdz_ok by (rewrite Hlen; lia). cbn [bind]. rewrite wrz_ok by (rewrite Hlen; lia). eexists. split; [reflexivity|].
  eapply step_word; try eassumption; try lia.
  - apply lor_range; apply land_range; [exact Rv|apply word_range; exact Hw].
  - intros b Hbb. rewrite Z.lor_spec, !Z.land_spec, tb_not64, Hb by lia. destruct (Z.ltb_spec b 64); [|lia].
    destruct ((e <=? 64*(r+ti)+b) && (64*(r+ti)+b <? e')); cbn; rewrite ?andb_true_r, ?andb_false_r, ?orb_false_r; reflexivity.
Qed.

Lemma bit_cpy_spec : words m0 -> exists m', bit_cpy m0 r rs x xs l = Ok m' /\ cpd m' (D + l).
Proof.
  intros Hw.
  assert (C0 : forall e, e <= D -> cpd m0 e).
  { intros e He. split; [reflexivity|]. split; [exact Hw|]. intros k Hk. destruct (Z.leb_spec D k); cbn [andb]; [|reflexivity]. destruct (Z.ltb_spec k e); [lia|reflexivity]. }
  unfold bit_cpy. rewrite !shr6, !land63. fold d. fold dp. fold df.
  destruct (Z.eqb_spec (rs/64) ((rs+l)/64)) as [E|N]; cbn [negb].
  - destruct (Z.eqb_spec rs (rs+l)) as [E2|N2].
    + exists m0. split; [reflexivity|]. apply C0. lia.
    + apply (blend_step m0 (rs/64) D (D+l)); auto; try (unfold D; lia); try (apply C0; lia).
      * rewrite !shl1m by lia. apply lxor_range; rewrite Z.ones_equiv; (split; [assert (X := Z.pow_pos_nonneg 2 (rs mod 64)); assert (X2 := Z.pow_pos_nonneg 2 ((rs+l) mod 64)); lia|]).
        -- assert (2^(rs mod 64) <= 2^64) by (apply Z.pow_le_mono_r; lia). lia.
        -- assert (2^((rs+l) mod 64) <= 2^64) by (apply Z.pow_le_mono_r; lia). lia.
      * intros b Hb. rewrite !shl1m, Z.lxor_spec, !tb_ones by lia. unfold D.
        destruct (Z.ltb_spec b (rs mod 64)), (Z.ltb_spec b ((rs+l) mod 64)), (Z.leb_spec (64*r+rs) (64*(r+rs/64)+b)), (Z.ltb_spec (64*(r+rs/64)+b) (64*r+rs+l)); cbn; try reflexivity; lia.
  - assert (Hle : rs/64 < (rs+l)/64) by lia.
    assert (HA : exists m1 t1, (if rs mod 64 =? 0 then Ok (m0, rs / 64) else
      do v <- READ x dp df m0 (rs/64); do o <- rdz m0 (r + rs/64);
      do m <- wrz m0 (r + rs/64) (Z.lor (Z.land v (not64 (shl 1 (rs mod 64) - 1))) (Z.land o (shl 1 (rs mod 64) - 1))); Ok (m, rs/64+1)) = Ok (m1, t1)
      /\ cpd m1 (64*(r+t1)) /\ rs <= 64 * t1 < rs + 64).
    { destruct (Z.eqb_spec (rs mod 64) 0) as [E0|N0].
      - exists m0, (rs/64). split; [reflexivity|]. split; [apply C0; unfold D; lia|lia].
      - destruct (read_here m0 D (rs/64)) as [v [E [Rv Bv]]]; [apply C0; lia|lia|lia|lia|lia|]. rewrite E. cbn [bind].
        rewrite rdz_ok by (unfold D in *; lia). cbn [bind]. rewrite wrz_ok by (unfold D in *; lia). cbn [bind]. eexists _, _. split; [reflexivity|]. split; [|lia].
        eapply (step_word m0 (rs/64) D); try eassumption; try (unfold D; lia); try (apply C0; lia).
        + rewrite shl1m by lia. apply lor_range; apply land_range; [exact Rv|apply word_range; exact Hw].
        + intros b Hb. rewrite shl1m, Z.lor_spec, !Z.land_spec, tb_not64, tb_ones by lia. destruct (Z.ltb_spec b 64); [|lia]. unfold D.
          destruct (Z.ltb_spec b (rs mod 64)), (Z.leb_spec (64*r+rs) (64*(r+rs/64)+b)), (Z.ltb_spec (64*(r+rs/64)+b) (64*(r+(rs/64+1)))); cbn; rewrite ?andb_true_r, ?andb_false_r, ?orb_false_r; try reflexivity; lia. }
    destruct HA as [m1 [t1 [EA [CA Ht1]]]]. rewrite EA. cbn [bind].
    destruct (full_loop (Z.to_nat ((rs+l)/64 - t1)) m1 t1) as [m2 [E2 C2]]; auto; try (unfold D; lia). rewrite E2. cbn [bind].
    replace (64 * (r + t1 + Z.of_nat (Z.to_nat ((rs + l) / 64 - t1)))) with (64 * (r + (rs+l)/64)) in C2 by lia.
    destruct (Z.eqb_spec ((rs+l) mod 64) 0) as [E3|N3].
    + exists m2. split; [reflexivity|]. replace (D + l) with (64 * (r + (rs+l)/64)) by (unfold D; lia). exact C2.
    + apply (blend_step m2 ((rs+l)/64) (64 * (r + (rs+l)/64)) (D+l)); auto; try (unfold D; lia).
      * rewrite shl1m by lia. rewrite Z.ones_equiv. assert (X2 := Z.pow_pos_nonneg 2 ((rs+l) mod 64)). assert (2^((rs+l) mod 64) <= 2^64) by (apply Z.pow_le_mono_r; lia). lia.
      * intros b Hb. rewrite shl1m, tb_ones by lia. unfold D.
        destruct (Z.ltb_spec b ((rs+l) mod 64)), (Z.leb_spec (64*(r+(rs+l)/64)) (64*(r+(rs+l)/64)+b)), (Z.ltb_spec (64*(r+(rs+l)/64)+b) (64*r+rs+l)); cbn; try reflexivity; lia.
Qed.
End Cpy.
