From Verif Require Import Base ListLib BitsModel BitsSpec BitsProof BitsProof2 SqueezeModel SqueezeProof WidenModel SelectModel SelectProof SelectProof2 ArithModel ArithSpec ArithProof ArithProof2 ArithProof3 FoldModel FoldSpec FoldProof FoldProof2 FoldProof3 ScanModel.
From Coq Require Import List Lia.
Open Scope Z_scope.

(** * Scans from their recurrence *)
Lemma scanl_nth {A B} (f : A -> B -> A) d e : forall l c r, length r = length l -> (forall k, (k < length l)%nat -> nth k r d = f (match k with O => c | S k => nth k r d end) (nth k l e)) -> r = scanl f c l.
Proof.
  induction l as [|a l IH]; intros c r L H; destruct r as [|b r]; try discriminate; [reflexivity|]. cbn [scanl]. pose proof (H O) as H0. cbn [nth length] in H0. rewrite H0 by lia. f_equal. apply IH; [cbn in L; lia|]. intros k K. rewrite <- H0 by lia. specialize (H (S k)). cbn [nth length] in H. rewrite H by lia. destruct k; reflexivity.
Qed.
Lemma scanl_length {A B} (f : A -> B -> A) : forall l c, length (scanl f c l) = length l. Proof. induction l as [|a l IH]; intros c; cbn [scanl length]; auto. Qed.
Lemma scan1_length {A} (f : A -> A -> A) l : length (scan1 f l) = length l. Proof. destruct l; cbn [scan1 length]; rewrite ?scanl_length; auto. Qed.
Lemma scanl_map {A B} (f : A -> A -> A) (g : B -> B -> B) (h : A -> B) : (forall a b, g (h a) (h b) = h (f a b)) -> forall l c, map h (scanl f c l) = scanl g (h c) (map h l).
Proof. intros E. induction l as [|a l IH]; intros c; cbn [scanl map]; [reflexivity|]. rewrite IH, E. reflexivity. Qed.
Lemma scan1_map {A B} (f : A -> A -> A) (g : B -> B -> B) (h : A -> B) l : (forall a b, g (h a) (h b) = h (f a b)) -> map h (scan1 f l) = scan1 g (map h l).
Proof. intros E. destruct l as [|a l]; [reflexivity|]. cbn [scan1 map]. rewrite (scanl_map f g h E). reflexivity. Qed.
Lemma nth_bits m n k : (k < Z.to_nat n)%nat -> nth k (bits_of m 0 n) false = mbit m (Z.of_nat k).
Proof. intros K. apply nth_error_nth. rewrite nth_bits_of. replace (Z.of_nat k <? n) with true by lia. reflexivity. Qed.
Lemma scanl_bits f c rp xp n : (forall k, 0 <= k < n -> mbit rp k = f (if k =? 0 then c else mbit rp (k - 1)) (mbit xp k)) -> bits_of rp 0 n = scanl f c (bits_of xp 0 n).
Proof.
  intros H. apply (scanl_nth f false false). { rewrite !len_bits. reflexivity. }
  intros k K. rewrite len_bits in K. rewrite !nth_bits by lia. rewrite (H (Z.of_nat k)) by lia. destruct k as [|k]; [reflexivity|]. replace (Z.of_nat (S k) =? 0) with false by lia. rewrite nth_bits by lia. repeat f_equal. lia.
Qed.
Lemma scanl_scan1 {A} (f : A -> A -> A) c l : match l with [] => True | a :: _ => f c a = a end -> scanl f c l = scan1 f l.
Proof. destruct l as [|a l]; [reflexivity|]. cbn [scanl scan1]. intros ->. reflexivity. Qed.

(** * Loops over words *)
Fixpoint wloop (g : Z -> Z -> Z) (nx : Z -> Z) (n : nat) (xp : list Z) (i p : Z) : res (list Z) :=
  match n with O => Ok [] | S n => do c <- rdz xp i; let r := g c p in do rest <- wloop g nx n xp (i + 1) (nx r); Ok (r :: rest) end.
Lemma ne_wloop : forall n xp i p, ne_loop n xp i p = wloop ne_word (fun r => neg64 (Z.shiftr r 63)) n xp i p.
Proof. induction n as [|n IH]; intros; cbn [ne_loop wloop]; [reflexivity|]. destruct (rdz xp i); cbn [bind]; try reflexivity. rewrite IH. reflexivity. Qed.
Lemma lt_wloop : forall n xp i p, lt_loop n xp i p = wloop lt_word (fun r => r) n xp i p.
Proof. induction n as [|n IH]; intros; cbn [lt_loop wloop]; [reflexivity|]. destruct (rdz xp i); cbn [bind]; try reflexivity. rewrite IH. reflexivity. Qed.
Lemma word_cons a l j : 0 <= j -> word (a :: l) j = if j =? 0 then a else word l (j - 1).
Proof. intros J. unfold word. destruct (Z.eqb_spec j 0) as [->|N]; [reflexivity|]. replace (Z.to_nat j) with (S (Z.to_nat (j - 1))) by lia. reflexivity. Qed.
Lemma wloop_ok g nx : (forall c p, 0 <= c < 2 ^ 64 -> 0 <= p < 2 ^ 64 -> 0 <= g c p < 2 ^ 64) -> (forall r, 0 <= r < 2 ^ 64 -> 0 <= nx r < 2 ^ 64) -> forall n xp i p, words xp -> 0 <= i -> i + Z.of_nat n <= len xp -> 0 <= p < 2 ^ 64 ->
  exists r, wloop g nx n xp i p = Ok r /\ length r = n /\ words r /\ forall j, 0 <= j < Z.of_nat n -> word r j = g (word xp (i + j)) (if j =? 0 then p else nx (word r (j - 1))).
Proof.
  intros G NX. induction n as [|n IH]; intros xp i p W I L P. { exists []. repeat split; auto; try constructor; lia. }
  cbn [wloop]. rewrite rdz_ok by lia. cbn [bind]. pose proof (word_range xp i W) as WR. destruct (IH xp (i + 1) (nx (g (word xp i) p)) W) as (r & -> & Lr & Wr & H); [lia|lia|apply NX, G; auto|]. cbn [bind]. exists (g (word xp i) p :: r). split; [reflexivity|]. split; [cbn; lia|]. split; [constructor; auto|].
  intros j J. rewrite !word_cons by lia. destruct (Z.eqb_spec j 0) as [->|NJ]; [rewrite Z.add_0_r; reflexivity|]. rewrite H by lia. replace (i + 1 + (j - 1)) with (i + j) by lia. f_equal. destruct (Z.eqb_spec (j - 1) 0) as [E|E]; [rewrite word_cons by lia; rewrite E; reflexivity|]. rewrite word_cons by lia. replace (j - 1 =? 0) with false by lia. reflexivity.
Qed.
Lemma nwords_le xp n : 0 <= n <= 64 * len xp -> Z.of_nat (nwords n) <= len xp /\ n <= 64 * Z.of_nat (nwords n).
Proof. intros N. unfold nwords, BIT_N. rewrite shr6. lia. Qed.
(** bits from the words, for a step that depends on the top bit before *)
Lemma wloop_bits f g nx n xp p : (forall c p, 0 <= c < 2 ^ 64 -> 0 <= p < 2 ^ 64 -> 0 <= g c p < 2 ^ 64) -> (forall r, 0 <= r < 2 ^ 64 -> 0 <= nx r < 2 ^ 64) ->
  (forall c p, 0 <= c < 2 ^ 64 -> 0 <= p < 2 ^ 64 -> p = 0 \/ p = Z.ones 64 \/ nx = (fun r => r) -> forall j, 0 <= j < 64 -> Z.testbit (g c p) j = f (if j =? 0 then Z.testbit p 63 else Z.testbit (g c p) (j - 1)) (Z.testbit c j)) ->
  (forall r, 0 <= r < 2 ^ 64 -> Z.testbit (nx r) 63 = Z.testbit r 63 /\ (nx r = 0 \/ nx r = Z.ones 64 \/ nx = (fun r => r))) ->
  words xp -> Z.of_nat n <= len xp -> 0 <= p < 2 ^ 64 -> p = 0 \/ p = Z.ones 64 \/ nx = (fun r => r) ->
  exists r, wloop g nx n xp 0 p = Ok r /\ length r = n /\ words r /\ forall k, 0 <= k < 64 * Z.of_nat n -> mbit r k = f (if k =? 0 then Z.testbit p 63 else mbit r (k - 1)) (mbit xp k).
Proof.
  intros G NX S T W N P PP. destruct (wloop_ok g nx G NX n xp 0 p W) as (r & E & L & Wr & H); [lia|lia|auto|]. exists r. split; auto. split; auto. split; auto. intros k K.
  rewrite !mbit_split. rewrite (H (k / 64)) by lia. rewrite Z.add_0_l. pose proof (word_range xp (k / 64) W) as WX. set (q := if k / 64 =? 0 then p else nx (word r (k / 64 - 1))).
  pose proof (word_range r (k / 64 - 1) Wr) as WR1. assert (Q : 0 <= q < 2 ^ 64 /\ (q = 0 \/ q = Z.ones 64 \/ nx = (fun r => r))). { unfold q. destruct (k / 64 =? 0); split; auto. destruct (T (word r (k / 64 - 1))); auto. }
  destruct Q as [Q1 Q2]. rewrite (S _ _ WX Q1 Q2 (k mod 64)) by lia. f_equal. destruct (Z.eqb_spec (k mod 64) 0) as [M|M].
  - unfold q. destruct (Z.eqb_spec (k / 64) 0) as [D|D]; [replace (k =? 0) with true by lia; reflexivity|]. replace (k =? 0) with false by lia. destruct (T (word r (k / 64 - 1)) WR1) as [-> _]. replace ((k - 1) / 64) with (k / 64 - 1) by lia. replace ((k - 1) mod 64) with 63 by lia. reflexivity.
  - replace (k =? 0) with false by lia. replace ((k - 1) / 64) with (k / 64) by lia. replace ((k - 1) mod 64) with (k mod 64 - 1) by lia. rewrite (H (k / 64)) by lia. rewrite Z.add_0_l. reflexivity.
Qed.

(** * ≠` *)
Lemma neg64_top r : 0 <= r < 2 ^ 64 -> neg64 (Z.shiftr r 63) = if Z.testbit r 63 then Z.ones 64 else 0.
Proof.
  intros R. rewrite Z.testbit_odd. assert (D : Z.shiftr r 63 = r / 2 ^ 63) by (apply Z.shiftr_div_pow2; lia). assert (Z.shiftr r 63 = 0 \/ Z.shiftr r 63 = 1) as [->| ->]; [|reflexivity|reflexivity]. rewrite D. change (2 ^ 63) with 9223372036854775808 in *. change (2 ^ 64) with 18446744073709551616 in R. lia.
Qed.
Fixpoint px (c : Z) (n : nat) : bool := match n with O => false | S n => xorb (px c n) (Z.testbit c (Z.of_nat n)) end.
Definition PX (c j : Z) : bool := px c (Z.to_nat (j + 1)).
Lemma PX_step c j : 0 <= j -> PX c j = xorb (PX c (j - 1)) (Z.testbit c j).
Proof. intros J. unfold PX. replace (Z.to_nat (j + 1)) with (S (Z.to_nat j)) by lia. cbn [px]. rewrite Z2Nat.id by lia. replace (j - 1 + 1) with j by lia. reflexivity. Qed.
Lemma PX_neg c j : j < 0 -> PX c j = false. Proof. intros J. unfold PX. replace (Z.to_nat (j + 1)) with O by lia. reflexivity. Qed.
Lemma px_stage c r d : 0 < d -> (forall j, 0 <= j < 64 -> Z.testbit r j = xorb (PX c j) (PX c (j - d))) -> forall j, 0 <= j < 64 -> Z.testbit (Z.lxor r (shl r d)) j = xorb (PX c j) (PX c (j - 2 * d)).
Proof.
  intros D H j J. rewrite Z.lxor_spec, tb_shl, H by lia. replace (j <? 64) with true by lia. rewrite andb_true_r. destruct (Z.ltb_spec (j - d) 0) as [L|L].
  - rewrite (Z.testbit_neg_r r) by lia. rewrite (PX_neg c (j - d)), (PX_neg c (j - 2 * d)) by lia. destruct (PX c j); reflexivity.
  - rewrite H by lia. replace (j - d - d) with (j - 2 * d) by lia. destruct (PX c j), (PX c (j - d)), (PX c (j - 2 * d)); reflexivity.
Qed.
Lemma ne_word_bit c p j : 0 <= j < 64 -> Z.testbit (ne_word c p) j = xorb (PX c j) (Z.testbit p j).
Proof.
  intros J. unfold ne_word. rewrite Z.lxor_spec. f_equal.
  assert (S1 : forall j, 0 <= j < 64 -> Z.testbit (Z.lxor c (shl c 1)) j = xorb (PX c j) (PX c (j - 2))).
  { intros i I. rewrite Z.lxor_spec, tb_shl by lia. replace (i <? 64) with true by lia. rewrite andb_true_r. rewrite (PX_step c i) by lia. destruct (Z.eq_dec i 0) as [->|N]; [rewrite (PX_neg c (0 - 1)), (PX_neg c (0 - 2)) by lia; rewrite (Z.testbit_neg_r c (0 - 1)) by lia; destruct (Z.testbit c 0); reflexivity|]. rewrite (PX_step c (i - 1)) by lia. replace (i - 1 - 1) with (i - 2) by lia. destruct (PX c (i - 2)), (Z.testbit c (i - 1)), (Z.testbit c i); reflexivity. }
  assert (S2 := px_stage c _ 2 eq_refl S1). assert (S3 := px_stage c _ 4 eq_refl S2). assert (S4 := px_stage c _ 8 eq_refl S3). assert (S5 := px_stage c _ 16 eq_refl S4). assert (S6 := px_stage c _ 32 eq_refl S5).
  rewrite (S6 j J). rewrite (PX_neg c (j - 2 * 32)) by lia. rewrite xorb_false_r. reflexivity.
Qed.
Lemma ne_word_range c p : 0 <= c < 2 ^ 64 -> 0 <= p < 2 ^ 64 -> 0 <= ne_word c p < 2 ^ 64.
Proof. intros C P. unfold ne_word. repeat (apply lxor_range; [|auto using shl_range]); auto. Qed.
Lemma neg64_range x : 0 <= neg64 x < 2 ^ 64. Proof. unfold neg64, to_u. apply Z.mod_pos_bound. lia. Qed.
Lemma all_same p j k : p = 0 \/ p = Z.ones 64 -> 0 <= j < 64 -> 0 <= k < 64 -> Z.testbit p j = Z.testbit p k.
Proof. intros [->| ->] J K; [rewrite !Z.bits_0; reflexivity|]. rewrite !tb_ones by lia. replace (j <? 64) with true by lia. replace (k <? 64) with true by lia. reflexivity. Qed.
Lemma not_id64 : (fun r => neg64 (Z.shiftr r 63)) <> (fun r => r). Proof. intros E. assert (H := f_equal (fun f => f 1) E). vm_compute in H. discriminate. Qed.
Lemma scan_ne_ok xp p n : words xp -> 0 <= n <= 64 * len xp -> p = 0 \/ p = Z.ones 64 ->
  exists r, scan_ne xp p n = Ok r /\ length r = nwords n /\ words r /\ forall k, 0 <= k < 64 * Z.of_nat (nwords n) -> mbit r k = xorb (if k =? 0 then Z.testbit p 63 else mbit r (k - 1)) (mbit xp k).
Proof.
  intros W N P. destruct (nwords_le xp n N) as [N1 N2]. unfold scan_ne. rewrite ne_wloop. apply wloop_bits; auto.
  - apply ne_word_range.
  - intros. apply neg64_range.
  - intros c q C Q [H|[H|H]] j J; try (exfalso; apply not_id64, H); (assert (A : q = 0 \/ q = Z.ones 64) by auto; rewrite !ne_word_bit by lia; rewrite (PX_step c j) by lia; destruct (Z.eqb_spec j 0) as [->|NJ]; [rewrite PX_neg by lia; rewrite (all_same q 63 0 A) by lia; destruct (Z.testbit c 0), (Z.testbit q 0); reflexivity|rewrite ne_word_bit by lia; rewrite (all_same q j (j - 1) A) by lia; destruct (Z.testbit c j), (Z.testbit q (j - 1)), (PX c (j - 1)); reflexivity]).
  - intros r R. rewrite neg64_top by auto. destruct (Z.testbit r 63); auto.
  - destruct P as [->| ->]; vm_compute; split; congruence.
  - tauto.
Qed.
Lemma words_map_xor l m : words l -> 0 <= m < 2 ^ 64 -> words (map (fun w => Z.lxor w m) l).
Proof. intros W M. apply Forall_forall. intros z H. apply in_map_iff in H. destruct H as (y & <- & Y). unfold words in W. rewrite Forall_forall in W. apply lxor_range; auto. Qed.
Lemma word_map (g : Z -> Z) l j : 0 <= j < len l -> word (map g l) j = g (word l j).
Proof. intros J. unfold word. unfold len in J. rewrite (nth_indep (map g l) 0 (g 0)) by (rewrite map_length; lia). apply map_nth. Qed.
Lemma scan_eq_ok xp n : words xp -> 0 <= n <= 64 * len xp ->
  exists r, scan_eq xp n = Ok r /\ length r = nwords n /\ words r /\ forall k, 0 <= k < 64 * Z.of_nat (nwords n) -> mbit r k = if k =? 0 then mbit xp k else Bool.eqb (mbit r (k - 1)) (mbit xp k).
Proof.
  intros W N. unfold scan_eq. destruct (scan_ne_ok xp 0 n W N) as (r & -> & L & Wr & H); [auto|]. cbn [bind]. eexists. split; [reflexivity|]. split; [rewrite map_length; auto|]. split; [apply words_map_xor; auto; vm_compute; split; congruence|].
  assert (E : forall k, 0 <= k < 64 * Z.of_nat (nwords n) -> mbit (map (fun w => Z.lxor w AAAA) r) k = xorb (mbit r k) (Z.odd k)).
  { intros k K. rewrite !mbit_split. rewrite word_map by (unfold len; lia). rewrite Z.lxor_spec, AAAA_bit by lia. f_equal. assert (D : k = k mod 64 + 2 * (32 * (k / 64))) by lia. rewrite D at 2. rewrite Z.odd_add_mul_2. reflexivity. }
  intros k K. rewrite (E k K), (H k K). destruct (Z.eqb_spec k 0) as [->|NK]; [rewrite Z.bits_0; destruct (mbit xp 0); reflexivity|]. rewrite (E (k - 1)) by lia. rewrite Z.odd_sub. cbn [Z.odd]. destruct (Z.odd k), (mbit r (k - 1)), (mbit xp k); reflexivity.
Qed.
