(** The table products of the number formatter and parser are exact: a product with a tabulated 125-bit power of five,
    shifted right, is the floor of the product with the exact power, for every argument in range and every exponent. *)
From Verif Require Import Base SqueezeModel RyuTable RyuModel RyuCert.
Open Scope Z_scope.

(** Between two neighbouring fractions a/b < c/d there is no fraction with denominator below b+d; so if X/Y <= X2/Y2 lie
    between them, multiples below b+d have the same floor. *)
Lemma gap a b c d X Y X2 Y2 m :
  0 < b -> 0 < d -> c * b - a * d = 1 -> 0 < Y -> 0 < Y2 ->
  a * Y <= X * b -> X2 * d < c * Y2 -> X * Y2 <= X2 * Y -> 0 <= m < b + d ->
  m * X / Y = m * X2 / Y2.
Proof.
  intros Hb Hd H1 HY HY2 HL HR HX Hm.
  destruct (Z.eq_dec m 0) as [->|Hm0]; [rewrite !Z.mul_0_l, !Z.div_0_l by lia; reflexivity|].
  apply Z.le_antisymm.
  - apply Z.div_le_lower_bound; [lia|].
    assert (E : Y * (m * X / Y) <= m * X) by (apply Z.mul_div_le; lia).
    assert (Y * (Y2 * (m * X / Y)) <= Y * (m * X2)); [|nia].
    replace (Y * (Y2 * (m * X / Y))) with (Y2 * (Y * (m * X / Y))) by ring.
    apply Z.le_trans with (Y2 * (m * X)); [apply Z.mul_le_mono_nonneg_l; lia|].
    replace (Y2 * (m * X)) with (m * (X * Y2)) by ring. replace (Y * (m * X2)) with (m * (X2 * Y)) by ring.
    apply Z.mul_le_mono_nonneg_l; lia.
  - set (n := m * X2 / Y2).
    assert (En : Y2 * n <= m * X2) by (apply Z.mul_div_le; lia).
    destruct (Z.le_gt_cases n (m * X / Y)) as [|Hc]; [assumption|exfalso].
    assert (Hlt : m * X < Y * n).
    { assert (m * X < Y * Z.succ (m * X / Y)) by (apply Z.mul_succ_div_gt; lia).
      apply Z.lt_le_trans with (Y * Z.succ (m * X / Y)); [assumption|]. apply Z.mul_le_mono_nonneg_l; lia. }
    assert (A1 : a * m < n * b).
    { apply Z.mul_lt_mono_pos_l with Y; [lia|].
      apply Z.le_lt_trans with (m * (X * b)).
      - replace (Y * (a * m)) with (m * (a * Y)) by ring. apply Z.mul_le_mono_nonneg_l; lia.
      - replace (m * (X * b)) with (b * (m * X)) by ring. replace (Y * (n * b)) with (b * (Y * n)) by ring.
        apply Z.mul_lt_mono_pos_l; lia. }
    assert (A2 : n * d < m * c).
    { apply Z.mul_lt_mono_pos_l with Y2; [lia|].
      apply Z.le_lt_trans with (m * (X2 * d)).
      - replace (Y2 * (n * d)) with (d * (Y2 * n)) by ring. replace (m * (X2 * d)) with (d * (m * X2)) by ring.
        apply Z.mul_le_mono_nonneg_l; lia.
      - replace (Y2 * (m * c)) with (m * (c * Y2)) by ring. apply Z.mul_lt_mono_pos_l; lia. }
    assert (m = b * (m * c - n * d) + d * (n * b - a * m)).
    { transitivity (m * (c * b - a * d)); [rewrite H1; ring|ring]. }
    assert (b * 1 <= b * (m * c - n * d)) by (apply Z.mul_le_mono_nonneg_l; lia).
    assert (d * 1 <= d * (n * b - a * m)) by (apply Z.mul_le_mono_nonneg_l; lia).
    lia.
Qed.

Definition okc (X Y X2 Y2 M : Z) (k : Z * Z * Z * Z) : bool :=
  let '(a, b, c, d) := k in
  (0 <? b) && (0 <? d) && (c * b - a * d =? 1) && (0 <? Y) && (0 <? Y2) &&
  (a * Y <=? X * b) && (X2 * d <? c * Y2) && (X * Y2 <=? X2 * Y) && (M <=? b + d).
Lemma okc_floor X Y X2 Y2 M k : okc X Y X2 Y2 M k = true ->
  forall m, 0 <= m < M -> m * X / Y = m * X2 / Y2.
Proof.
  destruct k as [[[a b] c] d]. unfold okc. rewrite !andb_true_iff, !Z.ltb_lt, !Z.leb_le, Z.eqb_eq.
  intros H m Hm. destruct H as ((((((((? & ?) & ?) & ?) & ?) & ?) & ?) & ?) & ?).
  apply (gap a b c d); try assumption; lia.
Qed.

Fixpoint allfrom {A} (f : Z -> A -> bool) (i : Z) (l : list A) : bool :=
  match l with [] => true | c :: t => f i c && allfrom f (i + 1) t end.
Lemma allfrom_ok {A} (f : Z -> A -> bool) l : forall i, allfrom f i l = true ->
  forall k, i <= k < i + Z.of_nat (length l) -> exists c, f k c = true.
Proof.
  induction l as [|c t IH]; intros i H k Hk; cbn [length] in Hk; [lia|].
  cbn [allfrom] in H. apply andb_prop in H as [H1 H2].
  destruct (Z.eq_dec k i) as [->|]; [eauto|]. apply (IH (i + 1) H2). lia.
Qed.

Definition tab (mul : Z * Z) : Z := fst mul + 2 ^ 64 * snd mul.
Definition wordsb (mul : Z * Z) : bool :=
  (0 <=? fst mul) && (fst mul <? 2 ^ 64) && (0 <=? snd mul) && (snd mul <? 2 ^ 62).
Lemma mulShift64_ok m mul j : wordsb mul = true -> 0 <= m < 2 ^ 60 -> 64 <= j < 192 -> m * tab mul / 2 ^ j < 2 ^ 64 ->
  mulShift64 m mul j = Ok (m * tab mul / 2 ^ j).
Proof.
  intros Hw Hm Hj Hr. unfold wordsb in Hw. rewrite !andb_true_iff, !Z.ltb_lt, !Z.leb_le in Hw.
  destruct Hw as (((H1 & H2) & H3) & H4). destruct mul as [lo hi]. cbn [fst snd] in *.
  unfold mulShift64, tab in *. cbn [fst snd] in *.
  destruct (Z.leb_spec 64 j); [|lia]. destruct (Z.ltb_spec j 192); [|lia]. cbn [andb].
  assert (E : m * lo / 2 ^ 64 + m * hi = m * (lo + 2 ^ 64 * hi) / 2 ^ 64).
  { replace (m * (lo + 2 ^ 64 * hi)) with (m * lo + (m * hi) * 2 ^ 64) by ring. rewrite Z.div_add by lia. reflexivity. }
  assert (B : 0 <= m * (lo + 2 ^ 64 * hi) < 2 ^ 60 * 2 ^ 126).
  { assert (0 <= lo + 2 ^ 64 * hi < 2 ^ 126).
    { change (2 ^ 126) with (2 ^ 64 * 2 ^ 62). split; [lia|].
      assert (2 ^ 64 * hi <= 2 ^ 64 * (2 ^ 62 - 1)) by (apply Z.mul_le_mono_nonneg_l; lia). lia. }
    split; [apply Z.mul_nonneg_nonneg; lia|].
    apply Z.mul_lt_mono_nonneg; lia. }
  set (P := m * (lo + 2 ^ 64 * hi)) in *. clearbody P.
  rewrite E. unfold to_u.
  assert (Q : 0 <= P / 2 ^ 64 < 2 ^ 128).
  { split; [apply Z.div_pos; lia|]. apply Z.div_lt_upper_bound; [lia|].
    change (2 ^ 64 * 2 ^ 128) with (2 ^ 60 * 2 ^ 126 * 2 ^ 6). lia. }
  rewrite (Z.mod_small (P / 2 ^ 64)) by exact Q.
  assert (Z2 : P / 2 ^ 64 / 2 ^ (j - 64) = P / 2 ^ j).
  { rewrite Z.div_div by (try apply Z.pow_pos_nonneg; lia). rewrite <- Z.pow_add_r by lia.
    do 2 f_equal; lia. }
  rewrite Z2. rewrite Z.mod_small; [reflexivity|]. split; [|exact Hr].
  apply Z.div_pos; [lia|]. apply Z.pow_pos_nonneg; lia.
Qed.

(** ** Printing, e2 >= 0 *)
Definition qpos (e2 : Z) : Z := log10Pow2 e2 - (if 3 <? e2 then 1 else 0).
Definition jpos (e2 : Z) : Z := - e2 + qpos e2 + (125 + pow5bits (qpos e2) - 1).
Definition chk_pos (e2 : Z) (k : Z * Z * Z * Z) : bool :=
  let q := qpos e2 in
  match entry pow5_inv_split q with
  | Ok mul =>
    wordsb mul && (0 <=? q) && (q <=? e2) && (64 <=? jpos e2) && (jpos e2 <? 192) &&
    (tab mul <? 128 * 2 ^ jpos e2) &&
    (5 ^ q <=? 2 ^ (e2 - q)) && (2 ^ (e2 - q) <=? 128 * 5 ^ q) &&
    okc (2 ^ (e2 - q)) (5 ^ q) (tab mul) (2 ^ jpos e2) (2 ^ 55) k
  | _ => false
  end.
Lemma all_pos : allfrom chk_pos 0 cert_pos = true.
Proof. vm_cast_no_check (eq_refl true). Qed.

Lemma small_prod m T j : 0 <= m < 2 ^ 57 -> 0 <= j -> T < 128 * 2 ^ j -> m * T / 2 ^ j < 2 ^ 64.
Proof.
  intros Hm Hj HT. apply Z.div_lt_upper_bound; [apply Z.pow_pos_nonneg; lia|].
  assert (0 < 2 ^ j) by (apply Z.pow_pos_nonneg; lia).
  destruct (Z.le_gt_cases T 0).
  - assert (m * T <= 0) by (apply Z.mul_nonneg_nonpos; lia). assert (0 < 2 ^ j * 2 ^ 64) by lia. lia.
  - apply Z.lt_le_trans with (2 ^ 57 * (128 * 2 ^ j)); [|lia]. apply Z.mul_lt_mono_nonneg; lia.
Qed.

Lemma pos_exact e2 : 0 <= e2 < 970 ->
  exists mul, entry pow5_inv_split (qpos e2) = Ok mul /\ 0 <= qpos e2 <= e2 /\
    5 ^ qpos e2 <= 2 ^ (e2 - qpos e2) <= 128 * 5 ^ qpos e2 /\
    forall m, 0 <= m < 2 ^ 55 -> mulShift64 m mul (jpos e2) = Ok (m * 2 ^ (e2 - qpos e2) / 5 ^ qpos e2).
Proof.
  intros H. destruct (allfrom_ok _ _ _ all_pos e2) as [k Hk].
  { assert (E : Z.of_nat (length cert_pos) = 970) by (vm_compute; reflexivity). rewrite E. lia. }
  unfold chk_pos in Hk. cbv zeta in Hk. destruct (entry pow5_inv_split (qpos e2)) as [mul| |]; try discriminate.
  rewrite !andb_true_iff, !Z.ltb_lt, !Z.leb_le in Hk.
  destruct Hk as ((((((((Hw & H0) & Hq) & Hj) & Hj2) & HT) & HL) & HU) & Hc).
  exists mul. split; [reflexivity|]. split; [lia|]. split; [lia|].
  intros m Hm. rewrite mulShift64_ok; try assumption; try lia.
  - f_equal. symmetry. exact (okc_floor _ _ _ _ _ _ Hc m Hm).
  - apply small_prod; lia.
Qed.

(** ** Printing, e2 < 0 *)
Definition qneg (n : Z) : Z := log10Pow5 n - (if 1 <? n then 1 else 0).
Definition jneg (n : Z) : Z := qneg n - (pow5bits (n - qneg n) - 125).
Definition chk_neg (n : Z) (k : Z * Z * Z * Z) : bool :=
  let q := qneg n in
  match entry pow5_split (n - q) with
  | Ok mul =>
    wordsb mul && (0 <=? q) && (q <=? n) && (64 <=? jneg n) && (jneg n <? 192) &&
    (tab mul <? 128 * 2 ^ jneg n) &&
    (2 ^ q <=? 5 ^ (n - q)) && (5 ^ (n - q) <=? 128 * 2 ^ q) &&
    okc (tab mul) (2 ^ jneg n) (5 ^ (n - q)) (2 ^ q) (2 ^ 55) k
  | _ => false
  end.
Lemma all_neg : allfrom chk_neg 1 cert_neg = true.
Proof. vm_cast_no_check (eq_refl true). Qed.

Lemma neg_exact n : 1 <= n < 1077 ->
  exists mul, entry pow5_split (n - qneg n) = Ok mul /\ 0 <= qneg n <= n /\
    2 ^ qneg n <= 5 ^ (n - qneg n) <= 128 * 2 ^ qneg n /\
    forall m, 0 <= m < 2 ^ 55 -> mulShift64 m mul (jneg n) = Ok (m * 5 ^ (n - qneg n) / 2 ^ qneg n).
Proof.
  intros H. destruct (allfrom_ok _ _ _ all_neg n) as [k Hk].
  { assert (E : Z.of_nat (length cert_neg) = 1076) by (vm_compute; reflexivity). rewrite E. lia. }
  unfold chk_neg in Hk. cbv zeta in Hk. destruct (entry pow5_split (n - qneg n)) as [mul| |]; try discriminate.
  rewrite !andb_true_iff, !Z.ltb_lt, !Z.leb_le in Hk.
  destruct Hk as ((((((((Hw & H0) & Hq) & Hj) & Hj2) & HT) & HL) & HU) & Hc).
  exists mul. split; [reflexivity|]. split; [lia|]. split; [lia|].
  intros m Hm. rewrite mulShift64_ok; try assumption; try lia.
  - f_equal. exact (okc_floor _ _ _ _ _ _ Hc m Hm).
  - apply small_prod; lia.
Qed.

(** ** Parsing, e10 >= 0; [b] is the floor of the binary logarithm of the digits *)
Definition chk_ppos (e : Z) (k : Z * Z * Z * Z) : bool :=
  let l := log2pow5 e in
  match entry pow5_split e with
  | Ok mul =>
    wordsb mul && (tab mul <? 2 ^ 125) && (0 <=? l) && (l <? 1000) && (2 ^ l <=? 5 ^ e) && (5 ^ e <? 2 ^ (l + 1)) &&
    okc (tab mul) (2 ^ 127) (5 ^ e) (2 ^ (l + 3)) (2 ^ 57) k
  | _ => false
  end.
Lemma all_ppos : allfrom chk_ppos 0 cert_ppos = true.
Proof. vm_cast_no_check (eq_refl true). Qed.
Definition chk_pneg (e : Z) (k : Z * Z * Z * Z) : bool :=
  let l := log2pow5 e in
  match entry pow5_inv_split e with
  | Ok mul =>
    wordsb mul && (tab mul <=? 2 ^ 125) && (2 <=? l) && (l <? 1000) && (2 ^ l <=? 5 ^ e) && (5 ^ e <? 2 ^ (l + 1)) &&
    okc (2 ^ (l - 2)) (5 ^ e) (tab mul) (2 ^ 127) (2 ^ 57) k
  | _ => false
  end.
Lemma all_pneg : allfrom chk_pneg 1 cert_pneg = true.
Proof. vm_cast_no_check (eq_refl true). Qed.

Lemma norm_prod m b T : 0 <= b <= 56 -> m * T / 2 ^ (b + 71) = m * 2 ^ (56 - b) * T / 2 ^ 127.
Proof.
  intros Hb. rewrite <- (Z.div_mul_cancel_r (m * T) (2 ^ (b + 71)) (2 ^ (56 - b)));
    [|apply Z.pow_nonzero; lia..].
  rewrite <- Z.pow_add_r by lia. f_equal; [ring|f_equal; lia].
Qed.
Lemma norm_bound m b : 0 <= b <= 56 -> 2 ^ b <= m < 2 ^ (b + 1) -> 2 ^ 56 <= m * 2 ^ (56 - b) < 2 ^ 57.
Proof.
  intros Hb Hm. assert (0 < 2 ^ (56 - b)) by (apply Z.pow_pos_nonneg; lia).
  assert (E1 : 2 ^ 56 = 2 ^ b * 2 ^ (56 - b)) by (rewrite <- Z.pow_add_r by lia; f_equal; lia).
  assert (E2 : 2 ^ 57 = 2 ^ (b + 1) * 2 ^ (56 - b)) by (rewrite <- Z.pow_add_r by lia; f_equal; lia).
  rewrite E1, E2. split; [apply Z.mul_le_mono_nonneg_r; lia|apply Z.mul_lt_mono_pos_r; lia].
Qed.

Lemma ppos_exact e : 0 <= e < 309 ->
  exists mul, entry pow5_split e = Ok mul /\ 0 <= log2pow5 e < 1000 /\
    2 ^ log2pow5 e <= 5 ^ e < 2 ^ (log2pow5 e + 1) /\
    forall m b, 0 <= b <= 56 -> 2 ^ b <= m < 2 ^ (b + 1) ->
      mulShift64 m mul (b + 71) = Ok (m * 2 ^ (56 - b) * 5 ^ e / 2 ^ (log2pow5 e + 3)).
Proof.
  intros H. destruct (allfrom_ok _ _ _ all_ppos e) as [k Hk].
  { assert (E : Z.of_nat (length cert_ppos) = 309) by (vm_compute; reflexivity). rewrite E. lia. }
  unfold chk_ppos in Hk. cbv zeta in Hk. destruct (entry pow5_split e) as [mul| |]; try discriminate.
  rewrite !andb_true_iff, !Z.ltb_lt, !Z.leb_le in Hk.
  destruct Hk as ((((((Hw & HT) & Hl) & Hl2) & H1) & H2) & Hc).
  exists mul. split; [reflexivity|]. split; [lia|]. split; [lia|].
  intros m b Hb Hm. pose proof (norm_bound m b Hb Hm) as Hn.
  assert (Hpb : 0 < 2 ^ b) by (apply Z.pow_pos_nonneg; lia).
  assert (Hp1 : 2 ^ (b + 1) <= 2 ^ 57) by (apply Z.pow_le_mono_r; lia).
  rewrite mulShift64_ok; try assumption; try lia.
  - f_equal. rewrite norm_prod by lia. apply (okc_floor _ _ _ _ _ _ Hc); lia.
  - rewrite norm_prod by lia. apply Z.div_lt_upper_bound; [lia|].
    apply Z.le_lt_trans with (m * 2 ^ (56 - b) * 2 ^ 125); [apply Z.mul_le_mono_nonneg_l; lia|].
    apply Z.lt_le_trans with (2 ^ 57 * 2 ^ 125); [apply Z.mul_lt_mono_pos_r; lia|lia].
Qed.

(** ** Parsing, e10 = - e < 0 *)
Lemma pneg_exact e : 1 <= e < 342 ->
  exists mul, entry pow5_inv_split e = Ok mul /\ 2 <= log2pow5 e < 1000 /\
    2 ^ log2pow5 e <= 5 ^ e < 2 ^ (log2pow5 e + 1) /\
    forall m b, 0 <= b <= 56 -> 2 ^ b <= m < 2 ^ (b + 1) ->
      mulShift64 m mul (b + 71) = Ok (m * 2 ^ (56 - b) * 2 ^ (log2pow5 e - 2) / 5 ^ e).
Proof.
  intros H. destruct (allfrom_ok _ _ _ all_pneg e) as [k Hk].
  { assert (E : Z.of_nat (length cert_pneg) = 341) by (vm_compute; reflexivity). rewrite E. lia. }
  unfold chk_pneg in Hk. cbv zeta in Hk. destruct (entry pow5_inv_split e) as [mul| |]; try discriminate.
  rewrite !andb_true_iff, !Z.ltb_lt, !Z.leb_le in Hk.
  destruct Hk as ((((((Hw & HT) & Hl) & Hl2) & H1) & H2) & Hc).
  exists mul. split; [reflexivity|]. split; [lia|]. split; [lia|].
  intros m b Hb Hm. pose proof (norm_bound m b Hb Hm) as Hn.
  assert (Hpb : 0 < 2 ^ b) by (apply Z.pow_pos_nonneg; lia).
  assert (Hp1 : 2 ^ (b + 1) <= 2 ^ 57) by (apply Z.pow_le_mono_r; lia).
  rewrite mulShift64_ok; try assumption; try lia.
  - f_equal. rewrite norm_prod by lia. symmetry. apply (okc_floor _ _ _ _ _ _ Hc); lia.
  - rewrite norm_prod by lia. apply Z.div_lt_upper_bound; [lia|].
    apply Z.le_lt_trans with (m * 2 ^ (56 - b) * 2 ^ 125); [apply Z.mul_le_mono_nonneg_l; lia|].
    apply Z.lt_le_trans with (2 ^ 57 * 2 ^ 125); [apply Z.mul_lt_mono_pos_r; lia|lia].
Qed.
