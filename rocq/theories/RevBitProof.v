(** Proofs about RevBitModel. *)
From Coq Require Import ZArith List Arith Bool Lia.
Import ListNotations.
From Verif Require Import Base ListLib TransModel TransProof TransBitModel TransBitProof RevBitModel.
Open Scope Z_scope.
Definition clean (v : Z) : Prop := forall k, 64 <= k -> Z.testbit v k = false.
Lemma all64 (P : Z -> bool) : forallb (fun i => P (Z.of_nat i)) (seq 0 64) = true -> forall k, 0 <= k < 64 -> P k = true.
Proof. intros H k K. rewrite forallb_forall in H. specialize (H (Z.to_nat k)). rewrite Z2Nat.id in H by lia. apply H. apply in_seq. lia. Qed.
Definition swapf (lo hi sh : Z) (k : Z) (f : Z -> bool) : bool := (f (k - sh) && Z.testbit lo (k - sh)) || (f (k + sh) && Z.testbit hi (k + sh)).
Lemma swap_bit c lo hi sh k : 0 <= sh -> 0 <= k < 64 -> Z.testbit (swap c lo hi sh) k = swapf lo hi sh k (Z.testbit c).
Proof. intros S K. unfold swap, swapf, u64. rewrite Z.lor_spec, Z.mod_pow2_bits_low, Z.shiftl_spec, Z.shiftr_spec, !Z.land_spec by lia. reflexivity. Qed.
(** where the bit that ends up at [k] came from: computed for the 64 positions, no matter what the word is *)
Definition src_step (lo hi sh k : Z) : Z := if Z.testbit lo (k - sh) then k - sh else k + sh.
Definition one_side (lo hi sh k : Z) : bool := xorb (Z.testbit lo (k - sh)) (Z.testbit hi (k + sh)).
Lemma swapf_src lo hi sh k f : one_side lo hi sh k = true -> swapf lo hi sh k f = f (src_step lo hi sh k).
Proof. unfold one_side, swapf, src_step. destruct (Z.testbit lo (k - sh)), (Z.testbit hi (k + sh)); cbn [xorb]; try discriminate; intros _; rewrite ?andb_true_r, ?andb_false_r, ?orb_false_r, ?orb_false_l; reflexivity. Qed.
Definition bsrc (k : Z) : Z := 8 * (7 - k / 8) + k mod 8.
Lemma bswap_bit x k : 0 <= k < 64 -> Z.testbit (bswap64 x) k = Z.testbit x (bsrc k).
Proof.
  intros K. unfold bswap64. cbn [fold_left].
  assert (B : forall i, 0 <= i < 8 -> Z.testbit (Z.shiftl (Z.land (Z.shiftr x (8 * i)) 255) (56 - 8 * i)) k = if k / 8 =? 7 - i then Z.testbit x (bsrc k) else false).
  { intros i I. rewrite Z.shiftl_spec by lia. pose proof (Z.div_mod k 8 ltac:(lia)). pose proof (Z.mod_pos_bound k 8 ltac:(lia)). destruct (Z.lt_ge_cases (k - (56 - 8 * i)) 0) as [L|L].
    - rewrite Z.testbit_neg_r by auto. destruct (Z.eqb_spec (k / 8) (7 - i)); [lia|auto].
    - rewrite Z.land_spec, Z.shiftr_spec by auto. change 255 with (Z.ones 8). destruct (Z.lt_ge_cases (k - (56 - 8 * i)) 8) as [M|M].
      + rewrite Z.ones_spec_low by lia. rewrite andb_true_r. destruct (Z.eqb_spec (k / 8) (7 - i)) as [E|E]; [|exfalso; lia]. f_equal. unfold bsrc. rewrite E. lia.
      + rewrite Z.ones_spec_high by lia. rewrite andb_false_r. destruct (Z.eqb_spec (k / 8) (7 - i)); [lia|auto]. }
  rewrite !Z.lor_spec, Z.testbit_0_l. rewrite !B by lia. assert (R : 0 <= k / 8 < 8) by (split; [apply Z.div_pos; lia|apply Z.div_lt_upper_bound; lia]).
  assert (C : k / 8 = 0 \/ k / 8 = 1 \/ k / 8 = 2 \/ k / 8 = 3 \/ k / 8 = 4 \/ k / 8 = 5 \/ k / 8 = 6 \/ k / 8 = 7) by lia. set (t := Z.testbit x (bsrc k)). clearbody t. destruct C as [->|[->|[->|[->|[->|[->|[->| ->]]]]]]]; destruct t; reflexivity.
Qed.
Definition rsrc (k : Z) : Z := bsrc (src_step 0x0f0f0f0f0f0f0f0f 0xf0f0f0f0f0f0f0f0 4 (src_step 0x3333333333333333 0xcccccccccccccccc 2 (src_step 0x5555555555555555 0xaaaaaaaaaaaaaaaa 1 k))).
Lemma src_table k : 0 <= k < 64 -> let k1 := src_step 0x5555555555555555 0xaaaaaaaaaaaaaaaa 1 k in let k2 := src_step 0x3333333333333333 0xcccccccccccccccc 2 k1 in let k3 := src_step 0x0f0f0f0f0f0f0f0f 0xf0f0f0f0f0f0f0f0 4 k2 in
  one_side 0x5555555555555555 0xaaaaaaaaaaaaaaaa 1 k = true /\ one_side 0x3333333333333333 0xcccccccccccccccc 2 k1 = true /\ one_side 0x0f0f0f0f0f0f0f0f 0xf0f0f0f0f0f0f0f0 4 k2 = true /\ 0 <= k1 < 64 /\ 0 <= k2 < 64 /\ 0 <= k3 < 64 /\ bsrc k3 = 63 - k.
Proof.
  intros K. pose proof (all64 (fun k => let k1 := src_step 0x5555555555555555 0xaaaaaaaaaaaaaaaa 1 k in let k2 := src_step 0x3333333333333333 0xcccccccccccccccc 2 k1 in let k3 := src_step 0x0f0f0f0f0f0f0f0f 0xf0f0f0f0f0f0f0f0 4 k2 in
    one_side 0x5555555555555555 0xaaaaaaaaaaaaaaaa 1 k && one_side 0x3333333333333333 0xcccccccccccccccc 2 k1 && one_side 0x0f0f0f0f0f0f0f0f 0xf0f0f0f0f0f0f0f0 4 k2 && (0 <=? k1) && (k1 <? 64) && (0 <=? k2) && (k2 <? 64) && (0 <=? k3) && (k3 <? 64) && (bsrc k3 =? 63 - k)) eq_refl k K) as H. cbv zeta in H |- *.
  repeat (apply andb_true_iff in H; let H2 := fresh "H" in destruct H as [H H2]). repeat split; auto; try (apply Z.leb_le; auto; fail); try (apply Z.ltb_lt; auto; fail). apply Z.eqb_eq. auto.
Qed.
Lemma bit_reverse_ok x k : 0 <= k < 64 -> Z.testbit (bit_reverse64 x) k = Z.testbit x (63 - k).
Proof.
  intros K. destruct (src_table k K) as (O1 & O2 & O3 & K1 & K2 & K3 & E). unfold bit_reverse64. rewrite swap_bit, swapf_src by (auto; lia). rewrite swap_bit, swapf_src by (auto; lia). rewrite swap_bit, swapf_src by (auto; lia). rewrite bswap_bit by auto. rewrite E. reflexivity.
Qed.
Lemma wbit_upd rp i v k : (i < length rp)%nat -> wbit (upd rp i v) k = if (k / 64 =? i)%nat then Z.testbit v (Z.of_nat (k mod 64)) else wbit rp k.
Proof.
  intros L. unfold wbit. destruct (Nat.eqb_spec (k / 64) i) as [EI|NI]. - rewrite EI. assert (EN : nth i (upd rp i v) 0 = v); [apply nth_error_nth|rewrite EN; auto]. rewrite nth_error_upd, Nat.eqb_refl. replace (i <? length rp)%nat with true by (symmetry; apply Nat.ltb_lt; lia). auto. - f_equal. destruct (nth_error rp (k / 64)) as [u|] eqn:EU. + rewrite (nth_error_nth _ _ _ EU). apply nth_error_nth. rewrite nth_error_upd. destruct (Nat.eqb_spec i (k / 64)); [lia|auto]. + apply nth_error_None in EU. rewrite !nth_overflow by (rewrite ?upd_length; lia). auto.
Qed.
Lemma wbit_at ws i j : (j < 64)%nat -> wbit ws (64 * i + j) = Z.testbit (nth i ws 0) (Z.of_nat j).
Proof. intros J. unfold wbit. rewrite (Nat.mul_comm 64 i). replace ((i * 64 + j) / 64)%nat with i by (apply Nat.div_unique with j; lia). replace ((i * 64 + j) mod 64)%nat with j by (apply Nat.mod_unique with i; lia). reflexivity. Qed.
Lemma nth_upd (l : list Z) i v k : (i < length l)%nat -> nth k (upd l i v) 0 = if (k =? i)%nat then v else nth k l 0.
Proof. intros L. destruct (nth_error l k) as [u|] eqn:E. - destruct (Nat.eqb_spec k i) as [->|NE]; apply nth_error_nth; rewrite nth_error_upd. + rewrite Nat.eqb_refl. replace (i <? length l)%nat with true by (symmetry; apply Nat.ltb_lt; auto). auto. + destruct (Nat.eqb_spec i k); [lia|]. rewrite E. f_equal. symmetry. apply nth_error_nth. auto. - apply nth_error_None in E. destruct (Nat.eqb_spec k i); [lia|]. rewrite !nth_overflow by (rewrite ?upd_length; lia). auto. Qed.
Lemma rd_nth (l : list Z) i : (i < length l)%nat -> rd l i = Ok (nth i l 0).
Proof. intros L. unfold rd. rewrite (nth_error_nth' l 0 L). reflexivity. Qed.
Lemma dm k : exists i j, k = (64 * i + j)%nat /\ (j < 64)%nat.
Proof. exists (k / 64)%nat, (k mod 64)%nat. split; [apply Nat.div_mod; lia|apply Nat.mod_upper_bound; lia]. Qed.
Lemma upd_at rp i v i' j : (i < length rp)%nat -> (j < 64)%nat -> wbit (upd rp i v) (64 * i' + j) = if (i' =? i)%nat then Z.testbit v (Z.of_nat j) else wbit rp (64 * i' + j).
Proof. intros L J. rewrite wbit_upd by auto. rewrite (Nat.mul_comm 64 i'). replace ((i' * 64 + j) / 64)%nat with i' by (apply Nat.div_unique with j; lia). replace ((i' * 64 + j) mod 64)%nat with j by (apply Nat.mod_unique with i'; lia). reflexivity. Qed.

Lemma hi_clean v : 0 <= v < 2 ^ 64 -> clean v.
Proof. intros V k K. destruct (Z.eq_dec v 0) as [->|]; [apply Z.testbit_0_l|]. apply Z.bits_above_log2; [lia|]. apply Z.log2_lt_pow2; [lia|]. apply Z.lt_le_trans with (2 ^ 64); [lia|]. apply Z.pow_le_mono_r; lia. Qed.
Lemma swap_clean c lo hi sh : 0 <= sh -> clean hi -> clean (swap c lo hi sh).
Proof. intros S H k K. unfold swap, u64. rewrite Z.lor_spec, Z.mod_pow2_bits_high, Z.shiftr_spec, Z.land_spec by lia. rewrite H by lia. apply andb_false_r. Qed.
Lemma rev_clean v : clean (bit_reverse64 v).
Proof. unfold bit_reverse64. apply swap_clean; [lia|]. apply hi_clean. lia. Qed.
Lemma rev_words_ok g xp rp : length xp = g -> length rp = g -> exists r, rev_words g xp rp = Ok r /\ length r = g /\ (forall k, (k < 64 * g)%nat -> wbit r k = wbit xp (64 * g - 1 - k)) /\ forall i, (i < g)%nat -> clean (nth i r 0).
Proof.
  intros LX LR. unfold rev_words. destruct (loop_inv (fun i r => length r = g /\ (forall k, (k < 64 * i)%nat -> wbit r k = wbit xp (64 * g - 1 - k)) /\ forall i', (i' < i)%nat -> clean (nth i' r 0)) (fun i rp => do v <- rd xp (g - 1 - i); wr rp i (bit_reverse64 v)) g 0%nat rp) as (r & E & L & W).
  - intros i s IB (LS & W & C). rewrite rd_nth by lia. cbn [bind]. rewrite wr_ok' by lia. eexists. split; [reflexivity|]. split; [rewrite upd_length; auto|]. split.
    + intros k KB. destruct (dm k) as (i' & j & -> & J). rewrite upd_at by lia. destruct (Nat.eqb_spec i' i) as [->|NI]; [|apply W; lia]. rewrite bit_reverse_ok by lia. replace (64 * g - 1 - (64 * i + j))%nat with (64 * (g - 1 - i) + (63 - j))%nat by lia. rewrite wbit_at by lia. f_equal. lia.
    + intros i' I'. rewrite nth_upd by lia. destruct (Nat.eqb_spec i' i); [apply rev_clean|apply C; lia].
  - repeat split; auto; intros; lia.
  - exists r. auto.
Qed.
Lemma shifted a b sh j : 0 < sh < 64 -> clean a -> (j < 64)%nat -> Z.testbit (Z.lor (Z.shiftr a sh) (u64 (Z.shiftl b (64 - sh)))) (Z.of_nat j) = if Z.of_nat j + sh <? 64 then Z.testbit a (Z.of_nat j + sh) else Z.testbit b (Z.of_nat j + sh - 64).
Proof.
  intros S A J. unfold u64. rewrite Z.lor_spec, Z.mod_pow2_bits_low, Z.shiftr_spec, Z.shiftl_spec by lia. replace (Z.of_nat j - (64 - sh)) with (Z.of_nat j + sh - 64) by lia. destruct (Z.ltb_spec (Z.of_nat j + sh) 64).
  - rewrite (Z.testbit_neg_r b) by lia. apply orb_false_r.
  - rewrite A by lia. reflexivity.
Qed.
Lemma shift_words_ok e s rp : length rp = (e + 1)%nat -> (0 < s < 64)%nat -> (forall i, (i < e + 1)%nat -> clean (nth i rp 0)) ->
  exists r, shift_words e (Z.of_nat s) rp = Ok r /\ length r = (e + 1)%nat /\ nth e r 0 = nth e rp 0 /\ forall k, (k < 64 * e)%nat -> wbit r k = wbit rp (k + s).
Proof.
  intros LR S C. unfold shift_words. destruct (loop_inv (fun i r => length r = (e + 1)%nat /\ (forall i', (i <= i')%nat -> nth i' r 0 = nth i' rp 0) /\ forall k, (k < 64 * i)%nat -> wbit r k = wbit rp (k + s)) (fun i rp => do a <- rd rp i; do b <- rd rp (i + 1); wr rp i (Z.lor (Z.shiftr a (Z.of_nat s)) (u64 (Z.shiftl b (64 - Z.of_nat s))))) e 0%nat rp) as (r & E & L & K & W).
  - intros i q IB (LQ & K & W). rewrite !rd_nth by lia. cbn [bind]. rewrite wr_ok' by lia. eexists. split; [reflexivity|]. split; [rewrite upd_length; auto|]. split.
    + intros i' I'. rewrite nth_upd by lia. destruct (Nat.eqb_spec i' i); [lia|apply K; lia].
    + intros k KB. destruct (dm k) as (i' & j & -> & J). rewrite upd_at by lia. destruct (Nat.eqb_spec i' i) as [->|NI]; [|apply W; lia]. rewrite !K by lia. rewrite shifted by (try apply C; lia). destruct (Z.ltb_spec (Z.of_nat j + Z.of_nat s) 64).
      * replace (64 * i + j + s)%nat with (64 * i + (j + s))%nat by lia. rewrite wbit_at by lia. f_equal. lia.
      * replace (64 * i + j + s)%nat with (64 * (i + 1) + (j + s - 64))%nat by lia. rewrite wbit_at by lia. f_equal. lia.
  - repeat split; auto. intros; lia.
  - exists r. split; auto.
Qed.
Lemma reverse_bits_ok n xp rp : (0 < n)%nat -> length xp = bit_n n -> length rp = bit_n n -> exists r, reverse_bits n xp rp = Ok r /\ length r = bit_n n /\ forall k, (k < n)%nat -> wbit r k = wbit xp (n - 1 - k).
Proof.
  intros N LX LR. assert (G : (64 * bit_n n = n + (64 - n mod 64) mod 64 /\ 0 < bit_n n)%nat).
  { unfold bit_n. pose proof (Nat.div_mod n 64 ltac:(lia)) as D. pose proof (Nat.mod_upper_bound n 64 ltac:(lia)) as M. destruct (Nat.eq_dec (n mod 64) 0) as [E|E].
    - rewrite E. change ((64 - 0) mod 64)%nat with 0%nat. replace ((n + 63) / 64)%nat with (n / 64)%nat by (apply Nat.div_unique with 63%nat; lia). lia.
    - rewrite (Nat.mod_small (64 - n mod 64)) by lia. replace ((n + 63) / 64)%nat with (n / 64 + 1)%nat by (apply Nat.div_unique with (n mod 64 - 1)%nat; lia). lia. }
  destruct G as [G G0]. unfold reverse_bits. cbv zeta. set (g := bit_n n) in *. destruct (Nat.eqb_spec g 0); [lia|]. destruct (rev_words_ok g xp rp LX LR) as (r & -> & L & W & C). cbn [bind]. destruct (Nat.eqb_spec (n mod 64) 0) as [E|E].
  - exists r. split; auto. split; auto. intros k K. rewrite E in G. change ((64 - 0) mod 64)%nat with 0%nat in G. rewrite W by lia. f_equal. lia.
  - pose proof (Nat.mod_upper_bound n 64 ltac:(lia)) as M. rewrite Nat.mod_small in G by lia. set (s := (64 - n mod 64)%nat) in *. assert (ES : (- Z.of_nat n) mod 64 = Z.of_nat s). { symmetry. apply Z.mod_unique with (- Z.of_nat g); [lia|]. lia. } rewrite ES. destruct (shift_words_ok (g - 1) s r) as (r1 & -> & L1 & K1 & W1); [lia|lia|intros i I; apply C; lia|]. cbn [bind]. rewrite rd_nth by lia. cbn [bind]. rewrite wr_ok' by lia. eexists. split; [reflexivity|]. split; [rewrite upd_length; lia|]. intros k K. destruct (dm k) as (i & j & -> & J). rewrite upd_at by lia. destruct (Nat.eqb_spec i (g - 1)) as [->|NI].
    + rewrite K1, Z.shiftr_spec by lia. replace (n - 1 - (64 * (g - 1) + j))%nat with (64 * g - 1 - (64 * (g - 1) + (j + s)))%nat by lia. rewrite <- W by lia. rewrite wbit_at by lia. f_equal. lia.
    + rewrite W1 by lia. rewrite W by lia. f_equal. lia.
Qed.
