From Verif Require Import Base TransBitModel.
From Coq Require Import ZArith List Lia.
Import ListNotations.
Open Scope Z_scope.
(** bit k of an array of words *)
Definition wbit (ws : list Z) (k : nat) : bool := Z.testbit (nth (k / 64) ws 0) (Z.of_nat (k mod 64)).
Definition stepf (f : Z -> bool) (m sh k : Z) : bool := if Z.testbit m k then (if f k then true else f (k - sh)) else false.
Definition expandf (f : Z -> bool) : Z -> bool := stepf (stepf (stepf (stepf (stepf f 0x0000ffff0000ffff 16) 0x00ff00ff00ff00ff 8) 0x0f0f0f0f0f0f0f0f 4) 0x3333333333333333 2) 0x5555555555555555 1.
Lemma step_bit v m sh f : 0 <= sh -> (forall k, k < 64 -> Z.testbit v k = f k) -> forall k, k < 64 -> Z.testbit (step v m sh) k = stepf f m sh k.
Proof.
  intros S H k K. unfold step, u64, stepf. destruct (Z.lt_ge_cases k 0) as [N|N]; [rewrite !(Z.testbit_neg_r _ k) by auto; auto|]. rewrite Z.land_spec, Z.lor_spec, Z.mod_pow2_bits_low by lia. rewrite Z.shiftl_spec by lia. rewrite !H by lia. destruct (Z.testbit m k); [rewrite andb_true_r; destruct (f k); auto|apply andb_false_r].
Qed.
Lemma expand_bit v k : k < 64 -> Z.testbit (expand v) k = expandf (Z.testbit v) k.
Proof. intros K. unfold expand, expandf. cbv zeta. repeat (apply step_bit; [lia| |lia]; clear k K; intros k K). auto. Qed.
Lemma spread f : (forall k, k < 0 -> f k = false) -> (forall k, 32 <= k -> f k = false) -> forall m, 0 <= m < 64 -> expandf f m = if m mod 2 =? 0 then f (m / 2) else false.
Proof.
  intros N H m M. assert (I : In m (map Z.of_nat (seq 0 64))) by (apply in_map_iff; exists (Z.to_nat m); split; [lia|apply in_seq; lia]). clear M. unfold expandf, stepf.
  vm_compute in I. repeat (destruct I as [<-|I]; [abstract (cbv; repeat match goal with |- context [f (Zneg ?p)] => rewrite (N (Zneg p)) by reflexivity | |- context [f (Zpos ?p)] => rewrite (H (Zpos p)) by discriminate end; repeat match goal with |- context [f ?c] => destruct (f c) end; reflexivity)|]). destruct I.
Qed.
Lemma high v k : 0 <= v < 2 ^ 32 -> 32 <= k -> Z.testbit v k = false.
Proof. intros V K. destruct (Z.eq_dec v 0) as [->|]; [apply Z.testbit_0_l|]. apply Z.bits_above_log2; [lia|]. apply Z.log2_lt_pow2; [lia|]. apply Z.lt_le_trans with (2 ^ 32); [lia|]. apply Z.pow_le_mono_r; lia. Qed.
Lemma expand_ok v k : 0 <= v < 2 ^ 32 -> 0 <= k < 64 -> Z.testbit (expand v) k = if k mod 2 =? 0 then Z.testbit v (k / 2) else false.
Proof. intros V K. rewrite expand_bit by lia. apply spread; auto; intros; [apply Z.testbit_neg_r; auto|apply high; auto]. Qed.
Lemma half_ok x i a : rd32 x i = Ok a -> 0 <= a < 2 ^ 32 /\ forall k, (k < 32)%nat -> Z.testbit a (Z.of_nat k) = wbit x (32 * i + k).
Proof.
  unfold rd32, rd. destruct (nth_error x (i / 2)%nat) as [v|] eqn:E; [|discriminate]. cbn [bind]. intros HA. assert (EA : a = Z.shiftr v (32 * Z.of_nat (i mod 2)) mod 2 ^ 32) by congruence. clear HA. subst a. split; [apply Z.mod_pos_bound; lia|]. intros k K. rewrite Z.mod_pow2_bits_low by lia. rewrite Z.shiftr_spec by lia. unfold wbit. assert (ED : ((32 * i + k) / 64 = i / 2)%nat) by (symmetry; apply Nat.div_unique with (32 * (i mod 2) + k)%nat; pose proof (Nat.mod_upper_bound i 2); pose proof (Nat.div_mod_eq i 2); lia). assert (EM : ((32 * i + k) mod 64 = 32 * (i mod 2) + k)%nat) by (symmetry; apply Nat.mod_unique with (i / 2)%nat; pose proof (Nat.mod_upper_bound i 2); pose proof (Nat.div_mod_eq i 2); lia). rewrite ED, EM. rewrite (nth_error_nth _ _ _ E). f_equal. lia.
Qed.
Lemma rd32_ok x i : (i < 2 * length x)%nat -> exists a, rd32 x i = Ok a.
Proof. intros H. unfold rd32, rd. destruct (nth_error x (i / 2)%nat) as [v|] eqn:E; [cbn; eauto|]. apply nth_error_None in E. pose proof (Nat.div_mod_eq i 2). pose proof (Nat.mod_upper_bound i 2). lia. Qed.
Lemma word_ok a b k : 0 <= a < 2 ^ 32 -> 0 <= b < 2 ^ 32 -> 0 <= k < 64 -> Z.testbit (Z.lor (expand a) (u64 (Z.shiftl (expand b) 1))) k = if k mod 2 =? 0 then Z.testbit a (k / 2) else Z.testbit b (k / 2).
Proof.
  intros A B K. unfold u64. rewrite Z.lor_spec, Z.mod_pow2_bits_low by lia. rewrite Z.shiftl_spec by lia. rewrite expand_ok by auto. destruct (Z.eq_dec k 0) as [->|K0]; [replace (Z.testbit (expand b) (0 - 1)) with false by (symmetry; apply Z.testbit_neg_r; reflexivity); apply orb_false_r|]. rewrite expand_ok by lia. assert (D : k = 2 * (k / 2) + k mod 2) by (apply Z.div_mod; lia). pose proof (Z.mod_pos_bound k 2). destruct (Z.eqb_spec (k mod 2) 0) as [E|E].
  - assert (E1 : (k - 1) mod 2 = 1) by (symmetry; apply Z.mod_unique with (k / 2 - 1); lia). rewrite E1. apply orb_false_r.
  - assert (E1 : (k - 1) mod 2 = 0) by (symmetry; apply Z.mod_unique with (k / 2); lia). rewrite E1. cbn [Z.eqb orb]. f_equal. symmetry. apply Z.div_unique with 0; lia.
Qed.
Lemma inter_ok n : forall i x0 x1 rp, (i + n <= 2 * length x0)%nat -> (i + n <= 2 * length x1)%nat -> (i + n <= length rp)%nat ->
  exists r, inter n i x0 x1 rp = Ok r /\ length r = length rp /\ (forall k, (k < 64 * i)%nat -> wbit r k = wbit rp k) /\ forall k, (64 * i <= k < 64 * (i + n))%nat -> wbit r k = if (k mod 2 =? 0)%nat then wbit x0 (k / 2) else wbit x1 (k / 2).
Proof.
  induction n as [|n IH]; intros i x0 x1 rp L0 L1 LR; cbn [inter]; [exists rp; repeat split; auto; intros; lia|]. destruct (rd32_ok x0 i ltac:(lia)) as (a & EA). destruct (rd32_ok x1 i ltac:(lia)) as (b & EB). rewrite EA, EB. cbn [bind]. unfold wr. replace (i <? length rp)%nat with true by (symmetry; apply Nat.ltb_lt; lia). cbn [bind]. destruct (half_ok _ _ _ EA) as [A A']. destruct (half_ok _ _ _ EB) as [B B'].
  set (v := Z.lor (expand a) (u64 (Z.shiftl (expand b) 1))). destruct (IH (i + 1)%nat x0 x1 (upd rp i v)) as (r & E & LL & K1 & K2); rewrite ?upd_length; try lia. exists r. split; auto. rewrite upd_length in LL. split; auto.
  assert (UP : forall k, wbit (upd rp i v) k = if (k / 64 =? i)%nat then Z.testbit v (Z.of_nat (k mod 64)) else wbit rp k). { intros k. unfold wbit. destruct (Nat.eqb_spec (k / 64) i) as [EI|NI]. - rewrite EI. assert (EN : nth i (upd rp i v) 0 = v); [apply nth_error_nth|rewrite EN; auto]. rewrite nth_error_upd, Nat.eqb_refl. replace (i <? length rp)%nat with true by (symmetry; apply Nat.ltb_lt; lia). auto. - f_equal. destruct (nth_error rp (k / 64)) as [u|] eqn:EU. + rewrite (nth_error_nth _ _ _ EU). apply nth_error_nth. rewrite nth_error_upd. destruct (Nat.eqb_spec i (k / 64)); [lia|auto]. + apply nth_error_None in EU. rewrite !nth_overflow by (rewrite ?upd_length; lia). auto. }
  split.
  - intros k K. rewrite K1 by lia. rewrite UP. assert (k / 64 < i)%nat by (apply Nat.div_lt_upper_bound; lia). destruct (Nat.eqb_spec (k / 64) i); [lia|auto].
  - intros k K. destruct (Nat.lt_ge_cases k (64 * (i + 1))) as [KL|KG]; [|apply K2; lia]. rewrite K1 by lia. rewrite UP. assert (ED : (k / 64 = i)%nat) by (symmetry; apply Nat.div_unique with (k - 64 * i)%nat; lia). rewrite ED, Nat.eqb_refl. assert (EM : (k mod 64 = k - 64 * i)%nat) by (symmetry; apply Nat.mod_unique with i; lia). rewrite EM. unfold v. rewrite word_ok by (auto; lia). set (t := (k - 64 * i)%nat). assert (KT : (k = 64 * i + t)%nat) by lia. assert (M2 : (k mod 2 = t mod 2)%nat) by (rewrite KT; replace (64 * i + t)%nat with (t + (32 * i) * 2)%nat by lia; apply Nat.mod_add; lia). assert (D2 : (k / 2 = 32 * i + t / 2)%nat) by (rewrite KT; replace (64 * i + t)%nat with ((32 * i) * 2 + t)%nat by lia; apply Nat.div_add_l; lia). rewrite M2, D2. assert (TB : (t / 2 < 32)%nat) by (apply Nat.div_lt_upper_bound; lia). rewrite <- A', <- B' by auto. replace (Z.of_nat (t / 2)) with (Z.of_nat t / 2) by (rewrite Nat2Z.inj_div; auto). replace (Z.of_nat t mod 2 =? 0) with (t mod 2 =? 0)%nat; auto. pose proof (Nat2Z.inj_mod t 2) as E2. cbn [Z.of_nat] in E2. change (Z.pos (Pos.of_succ_nat 1)) with 2 in E2. rewrite <- E2. destruct (Nat.eqb_spec (t mod 2) 0) as [->|NZ]; [reflexivity|]. symmetry. apply Z.eqb_neq. lia.
Qed.
Lemma interleave_ok rp x x1 w : length x = bit_n (2 * w) -> length x1 = bit_n w -> length rp = bit_n (2 * w) -> (forall k, (k < w)%nat -> wbit x1 k = wbit x (w + k)) ->
  exists r, interleave_bits rp x x1 (2 * w) = Ok r /\ length r = bit_n (2 * w) /\ forall n, (n < 2 * w)%nat -> wbit r n = wbit x ((n mod 2) * w + n / 2).
Proof.
  intros LX L1 LR S. unfold interleave_bits. assert (N : (bit_n (2 * w) <= 2 * bit_n w)%nat). { unfold bit_n. pose proof (Nat.div_mod_eq (w + 63) 64). pose proof (Nat.mod_upper_bound (w + 63) 64). assert ((2 * w + 63) / 64 < 2 * ((w + 63) / 64) + 1)%nat by (apply Nat.div_lt_upper_bound; lia). lia. } assert (NB : (2 * w <= 64 * bit_n (2 * w))%nat) by (unfold bit_n; pose proof (Nat.div_mod_eq (2 * w + 63) 64); pose proof (Nat.mod_upper_bound (2 * w + 63) 64); lia).
  destruct (inter_ok (bit_n (2 * w)) 0 x x1 rp) as (r & E & L & _ & K); try lia. exists r. split; auto. split; [lia|]. intros n NN. rewrite K by lia. assert (n / 2 < w)%nat by (apply Nat.div_lt_upper_bound; lia). pose proof (Nat.mod_upper_bound n 2). destruct (Nat.eqb_spec (n mod 2) 0) as [E0|E0]; [rewrite E0; auto|]. replace (n mod 2)%nat with 1%nat by lia. rewrite S by auto. f_equal. lia.
Qed.
