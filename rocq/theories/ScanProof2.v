From Verif Require Import Base ListLib BitsModel BitsSpec BitsProof BitsProof2 SqueezeModel SqueezeProof WidenModel SelectModel ArithModel ArithSpec FoldModel FoldSpec FoldProof FoldProof2 FoldProof3 ScanModel ScanProof.
From Coq Require Import List Lia.
Open Scope Z_scope.

(** * ∨` and ∧` *)
Lemma first_bit x : 0 <= x < 2 ^ 64 -> x <> 0 -> exists t, 0 <= t < 64 /\ Z.testbit x t = true /\ forall j, j < t -> Z.testbit x j = false.
Proof.
  intros X NZ. destruct (nonzero_bit 64 x X NZ) as (b & B & T). destruct (CTZ_spec x b) as (t & _ & T1 & T2 & T3); [lia|auto|]. exists t. split; [lia|]. split; auto. intros j J. destruct (Z.ltb_spec j 0); [apply Z.testbit_neg_r; lia|]. apply T3; lia.
Qed.
Lemma low_bits x t j : 0 <= j < t -> (forall j, j < t -> Z.testbit x j = false) -> Z.testbit (x - 1) j = true.
Proof.
  intros J H. assert (E : x mod 2 ^ t = 0). { apply Z.bits_inj'. intros i I. rewrite Z.bits_0. destruct (Z.ltb_spec i t); [rewrite Z.mod_pow2_bits_low by lia; apply H; lia|apply Z.mod_pow2_bits_high; lia]. }
  rewrite <- (Z.mod_pow2_bits_low (x - 1) t j) by lia. assert (P : 0 < 2 ^ t) by (apply Z.pow_pos_nonneg; lia). replace ((x - 1) mod 2 ^ t) with (Z.ones t); [rewrite tb_ones by lia; lia|]. rewrite Z.ones_equiv. unfold Z.pred. apply (Z.mod_unique_pos (x - 1) (2 ^ t) (x / 2 ^ t - 1)); [lia|]. pose proof (Z.div_mod x (2 ^ t)). nia.
Qed.
Lemma low_one x t : 0 <= x -> 0 <= t -> Z.testbit x t = true -> (forall j, j < t -> Z.testbit x j = false) -> forall j, t <= j -> Z.testbit (x - 1) j = if j =? t then false else Z.testbit x j.
Proof.
  intros X T B H j J. assert (E : x - 1 = Z.lxor (Z.lxor x (2 ^ t)) (Z.ones t)).
  { assert (P : 0 < 2 ^ t) by (apply Z.pow_pos_nonneg; lia). assert (L : Z.lxor x (2 ^ t) = x - 2 ^ t). { rewrite Z.sub_nocarry_ldiff; [|]. - apply Z.bits_inj'. intros i I. rewrite Z.lxor_spec, Z.ldiff_spec, Z.pow2_bits_eqb by lia. destruct (Z.eqb_spec t i) as [<-|]; [rewrite B; reflexivity|]. destruct (Z.testbit x i); reflexivity. - apply Z.bits_inj'. intros i I. rewrite Z.ldiff_spec, Z.bits_0, Z.pow2_bits_eqb by lia. destruct (Z.eqb_spec t i) as [<-|]; [rewrite B; reflexivity|reflexivity]. }
    rewrite <- Z.add_nocarry_lxor. { rewrite L, Z.ones_equiv. lia. } apply Z.bits_inj'. intros i I. rewrite Z.land_spec, Z.lxor_spec, Z.bits_0, tb_ones, Z.pow2_bits_eqb by lia. destruct (Z.ltb_spec i t); [|apply andb_false_r]. rewrite H by lia. replace (t =? i) with false by lia. reflexivity. }
  rewrite E, !Z.lxor_spec, tb_ones, Z.pow2_bits_eqb by lia. replace (j <? t) with false by lia. rewrite xorb_false_r. rewrite (Z.eqb_sym t j). destruct (Z.eqb_spec j t) as [->|]; [rewrite B; reflexivity|destruct (Z.testbit x j); reflexivity].
Qed.
Lemma neg64_bit x j : 0 <= j < 64 -> Z.testbit (neg64 x) j = negb (Z.testbit (x - 1) j).
Proof. intros J. unfold neg64, to_u. rewrite Z.mod_pow2_bits_low by lia. replace (- x) with (Z.lnot (x - 1)) by (unfold Z.lnot; lia). apply Z.lnot_spec. lia. Qed.
Lemma isolate x t : 0 <= x < 2 ^ 64 -> 0 <= t < 64 -> Z.testbit x t = true -> (forall j, j < t -> Z.testbit x j = false) -> Z.land x (neg64 x) = 2 ^ t.
Proof.
  intros X T B H. apply Z.bits_inj'. intros i I. rewrite Z.land_spec, Z.pow2_bits_eqb by lia. destruct (Z.ltb_spec i 64) as [L|L].
  - rewrite neg64_bit by lia. destruct (Z.eqb_spec t i) as [<-|NE]; [rewrite (low_one x t) by (auto; lia); rewrite Z.eqb_refl, B; reflexivity|]. destruct (Z.ltb_spec i t); [rewrite H by lia; reflexivity|]. rewrite (low_one x t) by (auto; lia). replace (i =? t) with false by lia. apply andb_negb_r.
  - rewrite (range_bits x 64) by lia. replace (t =? i) with false by lia. reflexivity.
Qed.
Lemma or_word x t : 0 <= x < 2 ^ 64 -> 0 <= t < 64 -> Z.testbit x t = true -> (forall j, j < t -> Z.testbit x j = false) -> forall j, 0 <= j < 64 -> Z.testbit (neg64 (Z.land x (neg64 x))) j = (t <=? j).
Proof.
  intros X T B H j J. rewrite (isolate x t) by auto. rewrite neg64_bit by lia. replace (2 ^ t - 1) with (Z.ones t) by (rewrite Z.ones_equiv; lia). rewrite tb_ones by lia. lia.
Qed.
Lemma mbit_cons a l k : 0 <= k -> mbit (a :: l) k = if k <? 64 then Z.testbit a k else mbit l (k - 64).
Proof.
  intros K. rewrite !mbit_split. rewrite word_cons by lia. destruct (Z.ltb_spec k 64); [replace (k / 64 =? 0) with true by lia; f_equal; lia|]. replace (k / 64 =? 0) with false by lia. f_equal; [f_equal; lia|lia].
Qed.
Lemma mbit_repeat a n k : 0 <= k < 64 * Z.of_nat n -> mbit (repeat a n) k = Z.testbit a (k mod 64).
Proof. intros K. rewrite mbit_split. unfold word. f_equal. apply (repeat_spec n). apply nth_In. rewrite repeat_length. lia. Qed.
Lemma mbit_word_at xp i k : 0 <= i -> 0 <= k < 64 -> mbit xp (64 * i + k) = Z.testbit (word xp i) k. Proof. intros. apply mbit_word. lia. Qed.
Lemma or_words_ok : forall n xp i, words xp -> 0 <= i -> i + Z.of_nat n <= len xp ->
  exists r, or_words n xp i = Ok r /\ length r = n /\ words r /\ forall k, 0 <= k < 64 * Z.of_nat n -> mbit r k = orb (if k =? 0 then false else mbit r (k - 1)) (mbit xp (64 * i + k)).
Proof.
  induction n as [|n IH]; intros xp i W I L. { exists []. repeat split; auto; try constructor; lia. }
  cbn [or_words]. rewrite rdz_ok by lia. cbn [bind]. pose proof (word_range xp i W) as WR. destruct (Z.eqb_spec (word xp i) 0) as [Z0|NZ].
  - destruct (IH xp (i + 1) W) as (r & -> & Lr & Wr & H); [lia|lia|]. cbn [bind]. exists (0 :: r). split; [reflexivity|]. split; [cbn; lia|]. split; [constructor; auto; vm_compute; split; congruence|].
    intros k K. rewrite mbit_cons by lia. destruct (Z.ltb_spec k 64) as [A|A].
    + rewrite mbit_word_at by lia. rewrite Z0, !Z.bits_0, orb_false_r. destruct (Z.eqb_spec k 0); [reflexivity|]. rewrite mbit_cons by lia. replace (k - 1 <? 64) with true by lia. rewrite Z.bits_0. reflexivity.
    + rewrite H by lia. replace (k =? 0) with false by lia. rewrite mbit_cons by lia. replace (64 * (i + 1) + (k - 64)) with (64 * i + k) by lia. f_equal. destruct (Z.eqb_spec (k - 64) 0) as [E|E]; [replace (k - 1 <? 64) with true by lia; rewrite Z.bits_0; reflexivity|]. replace (k - 1 <? 64) with false by lia. f_equal. lia.
  - destruct (first_bit (word xp i) WR NZ) as (t & T & B & Hl). pose proof (or_word _ t WR T B Hl) as O. eexists. split; [reflexivity|]. split; [cbn; rewrite repeat_length; lia|]. split. { constructor; [apply neg64_range|]. apply Forall_forall. intros z HZ. apply repeat_spec in HZ. subst z. apply ones64_range. }
    intros k K. rewrite !mbit_cons by lia. destruct (Z.ltb_spec k 64) as [A|A].
    + rewrite mbit_word_at by lia. rewrite O by lia. destruct (Z.eqb_spec k 0) as [->|NK]. { cbn [orb]. destruct (Z.leb_spec t 0); [replace 0 with t by lia; auto|rewrite Hl by lia; reflexivity]. }
      rewrite mbit_cons by lia. replace (k - 1 <? 64) with true by lia. rewrite O by lia. destruct (Z.leb_spec t (k - 1)); [cbn [orb]; lia|]. cbn [orb]. destruct (Z.leb_spec t k); [replace k with t by lia; auto|rewrite Hl by lia; reflexivity].
    + rewrite mbit_repeat by lia. rewrite tb_ones by lia. replace ((k - 64) mod 64 <? 64) with true by lia. replace (k =? 0) with false by lia. rewrite mbit_cons by lia. destruct (Z.ltb_spec (k - 1) 64); [rewrite O by lia; replace (t <=? k - 1) with true by lia; reflexivity|]. rewrite mbit_repeat by lia. rewrite tb_ones by lia. replace ((k - 1 - 64) mod 64 <? 64) with true by lia. reflexivity.
Qed.
Lemma not64_sub x : 0 <= x < 2 ^ 64 -> not64 x = 2 ^ 64 - 1 - x.
Proof.
  intros X. unfold not64. rewrite Z.lxor_comm || idtac. assert (E : Z.lxor x (Z.ones 64) = Z.ones 64 - x). { rewrite Z.sub_nocarry_ldiff. - apply Z.bits_inj'. intros i I. rewrite Z.lxor_spec, Z.ldiff_spec, tb_ones by lia. destruct (Z.ltb_spec i 64); [destruct (Z.testbit x i); reflexivity|rewrite (range_bits x 64) by lia; reflexivity]. - apply Z.bits_inj'. intros i I. rewrite Z.ldiff_spec, tb_ones, Z.bits_0 by lia. destruct (Z.ltb_spec i 64); [apply andb_false_r|rewrite (range_bits x 64) by lia; reflexivity]. }
  first [rewrite Z.lxor_comm, E | rewrite E]. reflexivity.
Qed.
Lemma and_or x : 0 <= x < 2 ^ 64 -> to_u 64 (x - 1) = not64 (neg64 x).
Proof. intros X. rewrite not64_sub by apply neg64_range. unfold neg64, to_u. change (2 ^ 64) with 18446744073709551616 in *. lia. Qed.
Lemma not64_twice x : 0 <= x < 2 ^ 64 -> not64 (not64 x) = x.
Proof. intros X. rewrite not64_sub by (apply not64_range; auto). rewrite not64_sub by auto. lia. Qed.
Lemma map_rep {A B} (g : A -> B) a n : map g (repeat a n) = repeat (g a) n. Proof. induction n as [|n IH]; cbn [repeat map]; [|rewrite IH]; reflexivity. Qed.
Lemma and_words_or : forall n xp i, words xp -> 0 <= i -> i + Z.of_nat n <= len xp -> and_words n xp i = do r <- or_words n (map not64 xp) i; Ok (map not64 r).
Proof.
  induction n as [|n IH]; intros xp i W I L; [reflexivity|]. cbn [and_words or_words]. rewrite !rdz_ok by (unfold len in *; rewrite ?map_length; lia). cbn [bind]. rewrite word_map by (unfold len in *; lia). pose proof (word_range xp i W) as WR. pose proof (not64_range _ WR) as NR. destruct (not64 (word xp i) =? 0).
  - rewrite IH by (auto; lia). destruct (or_words n (map not64 xp) (i + 1)); reflexivity.
  - cbn [bind map]. rewrite map_rep. rewrite and_or by (apply land_range; auto). reflexivity.
Qed.
Lemma words_not l : words l -> words (map not64 l).
Proof. intros W. apply Forall_forall. intros z H. apply in_map_iff in H. destruct H as (y & <- & Y). unfold words in W. rewrite Forall_forall in W. apply not64_range; auto. Qed.
Lemma mbit_not l k : 0 <= k < 64 * len l -> mbit (map not64 l) k = negb (mbit l k).
Proof. intros K. rewrite !mbit_split. rewrite word_map by lia. rewrite tb_not64 by lia. replace (k mod 64 <? 64) with true by lia. destruct (Z.testbit _ _); reflexivity. Qed.
Lemma scan_or_ok xp n : words xp -> 0 <= n <= 64 * len xp ->
  exists r, scan_or xp n = Ok r /\ length r = nwords n /\ words r /\ forall k, 0 <= k < 64 * Z.of_nat (nwords n) -> mbit r k = orb (if k =? 0 then false else mbit r (k - 1)) (mbit xp k).
Proof. intros W N. destruct (nwords_le xp n N) as [N1 N2]. unfold scan_or. apply (or_words_ok (nwords n) xp 0); auto; lia. Qed.
Lemma scan_and_ok xp n : words xp -> 0 <= n <= 64 * len xp ->
  exists r, scan_and xp n = Ok r /\ length r = nwords n /\ words r /\ forall k, 0 <= k < 64 * Z.of_nat (nwords n) -> mbit r k = andb (if k =? 0 then true else mbit r (k - 1)) (mbit xp k).
Proof.
  intros W N. destruct (nwords_le xp n N) as [N1 N2]. unfold scan_and. rewrite and_words_or by (auto; lia). destruct (or_words_ok (nwords n) (map not64 xp) 0) as (r & -> & L & Wr & H); [apply words_not; auto|lia|unfold len in *; rewrite map_length; lia|]. cbn [bind]. eexists. split; [reflexivity|]. split; [rewrite map_length; auto|]. split; [apply words_not; auto|].
  intros k K. rewrite mbit_not by (unfold len; lia). rewrite H by lia. rewrite Z.mul_0_r, Z.add_0_l. rewrite mbit_not by lia. destruct (Z.eqb_spec k 0) as [->|NK]; [destruct (mbit xp 0); reflexivity|]. rewrite mbit_not by (unfold len; lia). destruct (mbit r (k - 1)), (mbit xp k); reflexivity.
Qed.

(** * <` : bits of a difference *)
Definition maj (a b c : bool) : bool := (a && b) || (a && c) || (b && c).
Fixpoint bor (A X : Z) (b : bool) (n : nat) : bool := match n with O => b | S n => maj (negb (Z.testbit A (Z.of_nat n))) (Z.testbit X (Z.of_nat n)) (bor A X b n) end.
Lemma tb_half a n : Z.testbit a (Z.of_nat (S n)) = Z.testbit (a / 2) (Z.of_nat n).
Proof. rewrite Nat2Z.inj_succ. symmetry. apply Z.div2_bits. lia. Qed.
Lemma bor_shift A X b : forall n, bor A X b (S n) = bor (A / 2) (X / 2) (maj (negb (Z.testbit A 0)) (Z.testbit X 0) b) n.
Proof. induction n as [|n IH]; [reflexivity|]. change (bor A X b (S (S n))) with (maj (negb (Z.testbit A (Z.of_nat (S n)))) (Z.testbit X (Z.of_nat (S n))) (bor A X b (S n))). rewrite IH, !tb_half. reflexivity. Qed.
Lemma bit0 a : a = 2 * (a / 2) + Z.b2z (Z.testbit a 0).
Proof. rewrite Z.bit0_odd. pose proof (Zmod_odd a) as M. destruct (Z.odd a); cbn [Z.b2z]; lia. Qed.
Lemma sub_bits : forall n A X b, Z.testbit (A - X - Z.b2z b) (Z.of_nat n) = xorb (xorb (Z.testbit A (Z.of_nat n)) (Z.testbit X (Z.of_nat n))) (bor A X b n).
Proof.
  assert (H : forall A X b, exists q, A - X - Z.b2z b = 2 * q + Z.b2z (xorb (xorb (Z.testbit A 0) (Z.testbit X 0)) b) /\ q = A / 2 - X / 2 - Z.b2z (maj (negb (Z.testbit A 0)) (Z.testbit X 0) b)).
  { intros A X b. eexists. split; [|reflexivity]. pose proof (bit0 A) as EA. pose proof (bit0 X) as EX. destruct (Z.testbit A 0), (Z.testbit X 0), b; cbn [Z.b2z xorb maj negb andb orb] in *; lia. }
  induction n as [|n IH]; intros A X b.
  - destruct (H A X b) as (q & -> & _). cbn [Z.of_nat bor]. rewrite Z.testbit_0_r. reflexivity.
  - destruct (H A X b) as (q & E & Q). rewrite (tb_half (A - X - Z.b2z b)), (tb_half A), (tb_half X). rewrite E. replace ((2 * q + Z.b2z (xorb (xorb (Z.testbit A 0) (Z.testbit X 0)) b)) / 2) with q by (destruct (xorb _ _); cbn [Z.b2z]; lia). rewrite Q, IH, bor_shift. reflexivity.
Qed.
(** the scan of a word from 0, and the run of ones at its start *)
Fixpoint r0 (x : Z) (n : nat) : bool := match n with O => false | S n => negb (r0 x n) && Z.testbit x (Z.of_nat n) end.
Fixpoint kk (x : Z) (n : nat) : bool := match n with O => true | S n => Z.testbit x (Z.of_nat n) && kk x n end.
Lemma M5_bit j : 0 <= j < 64 -> Z.testbit M5 j = Z.even j.
Proof. intros I. assert (forallb (fun n => Bool.eqb (Z.testbit M5 (Z.of_nat n)) (Z.even (Z.of_nat n))) (seq 0 64) = true) as H by (vm_compute; reflexivity). rewrite forallb_forall in H. specialize (H (Z.to_nat j)). rewrite Z2Nat.id in H by lia. apply eqb_prop, H. apply in_seq. lia. Qed.
Definition pre (x : Z) (n : nat) : bool := match n with O => false | S n => Z.testbit x (Z.of_nat n) end.
Lemma r0_pre x n : r0 x n = true -> pre x n = true. Proof. destruct n; cbn [r0 pre]; [discriminate|]. intros H. apply andb_true_iff in H. tauto. Qed.
Lemma A_bit x n : (n < 64)%nat -> Z.testbit (Z.lor (shl x 1) M5) (Z.of_nat n) = pre x n || Z.even (Z.of_nat n).
Proof.
  intros N. rewrite Z.lor_spec, tb_shl, M5_bit by lia. replace (Z.of_nat n <? 64) with true by lia. rewrite andb_true_r. f_equal. destruct n as [|n]; [apply Z.testbit_neg_r; lia|]. cbn [pre]. f_equal. lia.
Qed.
Lemma bor_lt x n : (n <= 64)%nat -> bor (Z.lor (shl x 1) M5) x false n = pre x n && xorb (r0 x n) (Z.odd (Z.of_nat n)).
Proof.
  induction n as [|n IH]; intros N; [reflexivity|]. cbn [bor]. rewrite IH, A_bit by lia. cbn [pre r0]. pose proof (r0_pre x n) as RP. rewrite Nat2Z.inj_succ, Z.odd_succ, <- Z.negb_even. destruct (Z.even (Z.of_nat n)), (pre x n), (r0 x n), (Z.testbit x (Z.of_nat n)); try reflexivity; discriminate RP; reflexivity.
Qed.
Lemma bor_inc x n : bor x (-1) false n = negb (kk x n).
Proof. induction n as [|n IH]; [reflexivity|]. cbn [bor kk]. rewrite IH, Z.bits_m1 by lia. destruct (Z.testbit x (Z.of_nat n)), (kk x n); reflexivity. Qed.
Lemma lt_word_bit x p n : 0 <= p < 2 ^ 64 -> (n < 64)%nat -> Z.testbit (lt_word x p) (Z.of_nat n) = xorb (r0 x (S n)) (Z.testbit p 63 && kk x (S n)).
Proof.
  intros P N. unfold lt_word. rewrite neg64_top by auto. rewrite Z.land_spec, !Z.lxor_spec, M5_bit, Z.land_spec, tb_not64 by lia. replace (Z.of_nat n <? 64) with true by lia.
  unfold to_u. rewrite !Z.mod_pow2_bits_low by lia. replace (x + 1) with (x - -1 - Z.b2z false) by (cbn; lia). replace (Z.lor (shl x 1) M5 - x) with (Z.lor (shl x 1) M5 - x - Z.b2z false) by (cbn [Z.b2z]; lia). rewrite !sub_bits, bor_inc, bor_lt, A_bit, Z.bits_m1 by lia.
  assert (T : Z.testbit (if Z.testbit p 63 then Z.ones 64 else 0) (Z.of_nat n) = Z.testbit p 63). { destruct (Z.testbit p 63); [rewrite tb_ones by lia; lia|apply Z.bits_0]. } rewrite T. cbn [r0 kk]. pose proof (r0_pre x n) as RP. rewrite <- Z.negb_even.
  destruct (Z.even (Z.of_nat n)), (pre x n), (r0 x n), (Z.testbit x (Z.of_nat n)), (Z.testbit p 63), (kk x n); try reflexivity; discriminate RP; reflexivity.
Qed.
Lemma lt_word_step x p j : 0 <= p < 2 ^ 64 -> 0 <= j < 64 -> Z.testbit (lt_word x p) j = negb (if j =? 0 then Z.testbit p 63 else Z.testbit (lt_word x p) (j - 1)) && Z.testbit x j.
Proof.
  intros P J. destruct (Z.to_nat j) as [|n] eqn:E.
  - assert (j = 0) as -> by lia. pose proof (lt_word_bit x p 0 P) as H. cbn [Z.of_nat] in H. rewrite H by lia. cbn [r0 kk Z.of_nat Z.eqb]. destruct (Z.testbit x 0), (Z.testbit p 63); reflexivity.
  - assert (j = Z.of_nat (S n)) as -> by lia. replace (Z.of_nat (S n) - 1) with (Z.of_nat n) by lia. replace (Z.of_nat (S n) =? 0) with false by lia. rewrite !lt_word_bit by (auto; lia). change (r0 x (S (S n))) with (negb (r0 x (S n)) && Z.testbit x (Z.of_nat (S n))). change (kk x (S (S n))) with (Z.testbit x (Z.of_nat (S n)) && kk x (S n)). destruct (r0 x (S n)), (kk x (S n)), (Z.testbit x (Z.of_nat (S n))), (Z.testbit p 63); reflexivity.
Qed.
Lemma scan_lt_ok xp p n : words xp -> 0 <= n <= 64 * len xp -> 0 <= p < 2 ^ 64 ->
  exists r, scan_lt xp p n = Ok r /\ length r = nwords n /\ words r /\ forall k, 0 <= k < 64 * Z.of_nat (nwords n) -> mbit r k = negb (if k =? 0 then Z.testbit p 63 else mbit r (k - 1)) && mbit xp k.
Proof.
  intros W N P. destruct (nwords_le xp n N) as [N1 N2]. unfold scan_lt. rewrite lt_wloop. apply (wloop_bits (fun a b => negb a && b)); auto.
  - intros c q C Q. unfold lt_word. apply land_range; auto.
  - intros c q C Q _ j J. apply lt_word_step; auto.
Qed.
