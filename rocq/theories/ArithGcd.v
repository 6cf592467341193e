From Verif Require Import Base BitsModel BitsSpec BitsProof BitsProof2 SqueezeModel SqueezeProof SelectProof ArithModel ArithSpec ArithProof ArithProof2.
From Coq Require Import List Lia ZArith Znumtheory.

Lemma odd_rel g : Z.odd g = true -> rel_prime g 2.
Proof. intros O. apply rel_prime_sym. apply prime_rel_prime; [apply prime_2|]. intros [k ->]. rewrite Z.mul_comm, Z.odd_mul in O. discriminate. Qed.
Lemma odd_div g b : (g | b) -> Z.odd b = true -> Z.odd g = true.
Proof. intros [k ->] O. rewrite Z.odd_mul in O. apply andb_true_iff in O. tauto. Qed.
Lemma gcd_two a b : Z.odd b = true -> Z.gcd (2 * a) b = Z.gcd a b.
Proof.
  intros O. apply Z.divide_antisym_nonneg; try apply Z.gcd_nonneg.
  - apply Z.gcd_greatest; [|apply Z.gcd_divide_r]. apply Gauss with 2; [apply Z.gcd_divide_l|]. apply odd_rel. eapply odd_div; [apply Z.gcd_divide_r|exact O].
  - apply Z.gcd_greatest; [|apply Z.gcd_divide_r]. apply Z.divide_mul_r. apply Z.gcd_divide_l.
Qed.
Lemma gcd_pow2 i a b : 0 <= i -> Z.odd b = true -> Z.gcd (a * 2 ^ i) b = Z.gcd a b.
Proof. intros I O. revert i I. apply natlike_ind; [rewrite Z.mul_1_r; reflexivity|]. intros i I IH. rewrite Z.pow_succ_r by auto. replace (a * (2 * 2 ^ i)) with (2 * (a * 2 ^ i)) by ring. rewrite gcd_two by auto. exact IH. Qed.
(** CTZ takes a nonzero word apart *)
Lemma CTZ_odd x : 0 < x < 2 ^ 64 -> exists c, CTZ x = Ok c /\ 0 <= c < 64 /\ Z.odd (Z.shiftr x c) = true /\ x = Z.shiftr x c * 2 ^ c /\ 0 < Z.shiftr x c.
Proof.
  intros X. destruct (nonzero_bit 64 x) as (j & J & T); [change (Z.of_nat 64) with 64; lia|lia|]. change (Z.of_nat 64) with 64 in J. destruct (CTZ_spec x j J T) as (c & E & C & Tc & F).
  exists c. split; auto. split; [lia|]. assert (D : x = Z.shiftr x c * 2 ^ c).
  { rewrite <- Z.shiftl_mul_pow2 by lia. apply Z.bits_inj'. intros n N. rewrite Z.shiftl_spec by lia. destruct (Z_lt_le_dec n c); [rewrite F by lia; rewrite Z.testbit_neg_r by lia; reflexivity|]. rewrite Z.shiftr_spec by lia. f_equal. lia. }
  split; [rewrite <- Z.bit0_odd, Z.shiftr_spec by lia; exact Tc|]. split; auto. assert (0 < 2 ^ c) by (apply Z.pow_pos_nonneg; lia). nia.
Qed.
Lemma gcd_loop_ok : forall n a b az, 0 < a < 2 ^ 64 -> 0 < b < 2 ^ 64 -> Z.odd b = true -> CTZ a = Ok az -> Z.shiftr a az * b < 2 ^ Z.of_nat n -> gcd_loop (S n) a b az = Ok (Z.gcd a b).
Proof.
  induction n as [|n IH]; intros a b az A B O C M.
  - destruct (CTZ_odd a A) as (c & E & _ & _ & _ & P). rewrite C in E. injection E as <-. change (2 ^ Z.of_nat 0) with 1 in M. nia.
  - destruct (CTZ_odd a A) as (c & E & Cc & Oa & D & P). rewrite C in E. injection E as <-. rewrite (Nat2Z.inj_succ n), Z.pow_succ_r in M by lia.
    remember (S n) as m eqn:Em. cbn [gcd_loop]. set (s := Z.shiftr a az) in *. 
    assert (Sa : s <= a). { assert (1 <= 2 ^ az) by (assert (0 < 2 ^ az) by (apply Z.pow_pos_nonneg; lia); lia). nia. }
    assert (G : Z.gcd a b = Z.gcd s b) by (rewrite D; apply gcd_pow2; [lia|auto]). rewrite G. clear G.
    assert (HD : forall u v, 0 < u -> u < v -> v < 2 ^ 64 -> Z.odd u = true -> Z.odd v = true -> u * v < 2 * 2 ^ Z.of_nat n -> exists z, CTZ (v - u) = Ok z /\ Z.shiftr (v - u) z * u < 2 ^ Z.of_nat n).
    { intros u v U UV V Ou Ov Muv. destruct (CTZ_odd (v - u)) as (z & Ez & Cz & Oz & Dz & Pz); [lia|]. exists z. split; auto.
      assert (z <> 0). { intros ->. rewrite Z.shiftr_0_r in Oz. rewrite Z.odd_sub, Ou, Ov in Oz. discriminate. }
      assert (2 * Z.shiftr (v - u) z <= v - u). { assert (2 <= 2 ^ z). { replace z with (Z.succ (z - 1)) by lia. rewrite Z.pow_succ_r by lia. assert (0 < 2 ^ (z - 1)) by (apply Z.pow_pos_nonneg; lia). lia. } nia. }
      set (q := Z.shiftr (v - u) z) in *. clearbody q. nia. }
    unfold to_u. destruct (Z_lt_ge_dec b s) as [L|L].
    + (* b < a *)
      replace (b <? s) with true by lia. replace (b <? s) with true by lia.
      assert (DD : (b - s) mod 2 ^ 64 = b - s + 2 ^ 64). { change (2 ^ 64) with 18446744073709551616 in *. lia. }
      rewrite DD. replace (b - s + 2 ^ 64 =? 0) with false by lia. 
      assert (DN : (- (b - s + 2 ^ 64)) mod 2 ^ 64 = s - b). { change (2 ^ 64) with 18446744073709551616 in *. lia. }
      rewrite DN. destruct (HD b s) as (z & Ez & Mz); auto; try lia. 
      assert (CZ : CTZ (b - s + 2 ^ 64) = Ok z).
      { (* the count of trailing zeros of a word and its negative *)
        destruct (CTZ_odd (b - s + 2 ^ 64)) as (y & Ey & Cy & Oy & Dy & _); [lia|]. rewrite Ey. f_equal. destruct (CTZ_odd (s - b)) as (z' & Ez' & Cz & Oz & Dz & _); [lia|]. rewrite Ez in Ez'. injection Ez' as <-.
        set (p := Z.shiftr (b - s + 2 ^ 64) y) in *. set (q := Z.shiftr (s - b) z) in *. clearbody p q.
        assert (Sm : p * 2 ^ y + q * 2 ^ z = 2 ^ 64) by lia. clear - Sm Oy Oz Cy Cz.
        assert (X : forall p q y z, Z.odd p = true -> Z.odd q = true -> 0 <= y < 64 -> 0 <= z < 64 -> p * 2 ^ y + q * 2 ^ z = 2 ^ 64 -> ~ y < z).
        { clear. intros p q y z Op Oq Y Z Sm L. replace (2 ^ z) with (2 ^ (z - y) * 2 ^ y) in Sm by (rewrite <- Z.pow_add_r by lia; f_equal; lia). replace (2 ^ 64) with (2 ^ (64 - y) * 2 ^ y) in Sm by (rewrite <- Z.pow_add_r by lia; f_equal; lia).
          assert (0 < 2 ^ y) by (apply Z.pow_pos_nonneg; lia). assert (p + q * 2 ^ (z - y) = 2 ^ (64 - y)) by nia.
          assert (E1 : Z.odd (2 ^ (z - y)) = false). { replace (z - y) with (Z.succ (z - y - 1)) by lia. rewrite Z.pow_succ_r by lia. rewrite Z.odd_mul. reflexivity. }
          assert (E2 : Z.odd (2 ^ (64 - y)) = false). { replace (64 - y) with (Z.succ (64 - y - 1)) by lia. rewrite Z.pow_succ_r by lia. rewrite Z.odd_mul. reflexivity. }
          rewrite <- H0 in E2. rewrite Z.odd_add, Z.odd_mul, E1, Op, andb_false_r in E2. discriminate. }
        pose proof (X p q y z Oy Oz Cy Cz Sm). assert (Sm' : q * 2 ^ z + p * 2 ^ y = 2 ^ 64) by lia. pose proof (X q p z y Oz Oy Cz Cy Sm'). lia. }
      rewrite CZ. cbn [bind]. subst m. rewrite IH; auto; [|lia]. f_equal. rewrite Z.gcd_comm, Z.gcd_sub_diag_r, Z.gcd_comm. reflexivity.
    + replace (b <? s) with false by lia. replace (s <? s) with false by lia. rewrite Z.mod_small by lia. destruct (b - s =? 0) eqn:Z0.
      * f_equal. assert (b = s) as -> by lia. rewrite Z.gcd_diag. lia.
      * destruct (HD s b) as (z & Ez & Mz); auto; try lia. rewrite Ez. cbn [bind]. subst m. rewrite IH; auto; [|lia|lia]. f_equal. rewrite Z.gcd_comm, Z.gcd_sub_diag_r. reflexivity.
Qed.
Lemma gcd_loop_more : forall n a b az r, gcd_loop n a b az = Ok r -> forall m, (n <= m)%nat -> gcd_loop m a b az = Ok r.
Proof.
  induction n as [|n IH]; intros a b az r E m L; [discriminate|]. destruct m as [|m]; [lia|]. cbn [gcd_loop] in *. destruct (_ =? 0); auto.
  destruct (CTZ (to_u 64 (b - Z.shiftr a az))) as [z| |]; cbn [bind] in *; try discriminate. apply IH; auto. lia.
Qed.
Lemma gcd_ok a b : 0 <= a < 2 ^ 64 -> 0 <= b < 2 ^ 64 -> gcd_u64 a b = Ok (Z.gcd a b).
Proof.
  intros A B. unfold gcd_u64. destruct (Z.eqb_spec a 0) as [->|Na]; [rewrite Z.gcd_0_l; f_equal; lia|]. destruct (Z.eqb_spec b 0) as [->|Nb]; [rewrite Z.gcd_0_r; f_equal; lia|].
  destruct (CTZ_odd a) as (i & Ei & Ci & Oa & Da & Pa); [lia|]. destruct (CTZ_odd b) as (j & Ej & Cj & Ob & Db & Pb); [lia|]. rewrite Ei, Ej. cbn [bind].
  set (b' := Z.shiftr b j) in *. set (a' := Z.shiftr a i) in *.
  assert (Lb : b' <= b). { assert (1 <= 2 ^ j) by (assert (0 < 2 ^ j) by (apply Z.pow_pos_nonneg; lia); lia). nia. }
  assert (La : a' <= a). { assert (1 <= 2 ^ i) by (assert (0 < 2 ^ i) by (apply Z.pow_pos_nonneg; lia); lia). nia. }
  assert (E : gcd_loop 200 a b' i = Ok (Z.gcd a b')).
  { apply gcd_loop_more with 129%nat; [|lia]. apply gcd_loop_ok; auto; [lia|lia|]. fold a'. change (2 ^ Z.of_nat 128) with (2 ^ 64 * 2 ^ 64). nia. }
  rewrite E. cbn [bind]. f_equal. rewrite Da at 1. rewrite gcd_pow2 by (auto; lia).
  assert (G : Z.gcd a b = Z.gcd a' b' * 2 ^ (if i <? j then i else j)).
  { rewrite Da, Db. destruct (Z.ltb_spec i j).
    - replace (2 ^ j) with (2 ^ (j - i) * 2 ^ i) by (rewrite <- Z.pow_add_r by lia; f_equal; lia). rewrite Z.mul_assoc, Z.gcd_mul_mono_r, Z.abs_eq by (apply Z.pow_nonneg; lia). f_equal. rewrite Z.gcd_comm, gcd_pow2 by (auto; lia). apply Z.gcd_comm.
    - replace (2 ^ i) with (2 ^ (i - j) * 2 ^ j) by (rewrite <- Z.pow_add_r by lia; f_equal; lia). rewrite Z.mul_assoc, Z.gcd_mul_mono_r, Z.abs_eq by (apply Z.pow_nonneg; lia). f_equal. apply gcd_pow2; auto; lia. }
  rewrite Z.shiftl_mul_pow2 by (destruct (i <? j); lia). rewrite <- G. apply to_u_id. split; [apply Z.gcd_nonneg|]. assert (Z.gcd a b <= a) by (apply Z.divide_pos_le; [lia|apply Z.gcd_divide_l]). lia.
Qed.
Lemma gcd_double a b : 0 < a -> is_double a -> is_double (Z.gcd a b).
Proof.
  intros A (m & e & E & M & D). assert (P : 0 < 2 ^ e) by (apply Z.pow_pos_nonneg; lia). assert (Pm : 0 < m) by nia.
  (* the divisor of m * 2^e is a power of two not above 2^e times a divisor of m *)
  assert (X : forall e, 0 <= e -> forall g, 0 < g -> (g | m * 2 ^ e) -> exists h f, 0 <= f /\ g = h * 2 ^ f /\ (h | m)).
  { clear - Pm. refine (natlike_ind _ _ _).
    - intros g G Dv. exists g, 0. split; [lia|]. split; [ring|]. rewrite Z.mul_1_r in Dv. exact Dv.
    - intros e E IH g G Dv. rewrite Z.pow_succ_r in Dv by auto. replace (m * (2 * 2 ^ e)) with (2 * (m * 2 ^ e)) in Dv by ring.
      destruct (Z.odd g) eqn:O.
      + apply IH; auto. apply Gauss with 2; auto. apply odd_rel; auto.
      + rewrite <- Z.negb_even in O. apply negb_false_iff in O. apply Z.even_spec in O. destruct O as [h ->]. destruct Dv as [k Dk]. destruct (IH h) as (h' & f & F & -> & H); [lia|exists k; lia|]. exists h', (f + 1). split; [lia|]. split; [|auto]. rewrite Z.pow_add_r by lia. ring. }
  destruct (X e E (Z.gcd a b)) as (h & f & F & Eh & H); [|rewrite <- D; apply Z.gcd_divide_l|].
  - assert (0 <= Z.gcd a b) by apply Z.gcd_nonneg. assert (Z.gcd a b <> 0) by (intros Z0; apply Z.gcd_eq_0_l in Z0; lia). lia.
  - exists h, f. split; auto. split; [|exact Eh]. destruct (Z.eq_dec h 0) as [->|]; [lia|]. assert (0 <= Z.gcd a b) by apply Z.gcd_nonneg. assert (0 < 2 ^ f) by (apply Z.pow_pos_nonneg; lia). assert (0 < h) by nia. apply Z.divide_pos_le in H; lia.
Qed.
Lemma lcm_ok a b : 0 <= a < 2 ^ 64 -> 0 <= b < 2 ^ 64 -> lcm_u64 a b = Ok (to_u 64 (Z.lcm a b)).
Proof.
  intros A B. unfold lcm_u64. destruct (Z.eqb_spec a 0) as [->|Na]; cbn [orb]; [rewrite Z.lcm_0_l; reflexivity|]. destruct (Z.eqb_spec b 0) as [->|Nb]; [rewrite Z.lcm_0_r; reflexivity|].
  rewrite gcd_ok by auto. cbn [bind]. assert (G : Z.gcd a b <> 0) by (intros Z0; apply Z.gcd_eq_0_l in Z0; lia). replace (Z.gcd a b =? 0) with false by lia. f_equal. f_equal.
  unfold Z.lcm. assert (0 <= Z.gcd a b) by apply Z.gcd_nonneg. destruct (Z.gcd_divide_l a b) as [p Hp]. destruct (Z.gcd_divide_r a b) as [q Hq].
  assert (a / Z.gcd a b = p) as -> by (rewrite Hp at 1; apply Z.div_mul; auto). assert (b / Z.gcd a b = q) as -> by (rewrite Hq at 1; apply Z.div_mul; auto).
  set (g := Z.gcd a b) in *. clearbody g. rewrite Hp, Hq. rewrite Z.abs_eq; [ring|]. assert (0 <= p) by nia. assert (0 <= q) by nia. nia.
Qed.
Lemma stile_ok j k l : 0 <= j < 31 -> ik k -> inr k l -> exists r, stile_pow2 (2 ^ j) k l = Ok r /\ arr_ok r /\ vals r = map (fun e => e mod 2 ^ j) l.
Proof.
  intros J K L. unfold stile_pow2. assert (P : 0 < 2 ^ j) by (apply Z.pow_pos_nonneg; lia). destruct (Z.eqb_spec (2 ^ j) 1) as [->|N1].
  - eexists. split; [reflexivity|]. split; [split; [auto|]|]; [apply Forall_forall; intros z H; apply in_map_iff in H; destruct H as (? & <- & _); change (2 ^ (8 - 1)) with 128; lia|]. cbn [vals]. apply map_ext. intros a. rewrite Z.mod_1_r. reflexivity.
  - set (k' := if 2 ^ (k - 1) <? 2 ^ j then if 32768 <? 2 ^ j then 32 else 16 else k).
    assert (Lj : 2 ^ j <= 2 ^ 30) by (apply Z.pow_le_mono_r; lia). change (2 ^ 30) with 1073741824 in Lj.
    assert (K' : ik k' /\ 2 ^ j <= 2 ^ (k' - 1)).
    { unfold k'. destruct (Z.ltb_spec (2 ^ (k - 1)) (2 ^ j)); [|split; auto]. destruct (Z.ltb_spec 32768 (2 ^ j)); (split; [unfold ik; auto|]); [change (2 ^ (32 - 1)) with 2147483648|change (2 ^ (16 - 1)) with 32768]; lia. }
    destruct K' as [K' Lk]. clearbody k'.
    assert (K0 : 8 <= k') by (unfold ik in K'; lia). assert (T2 : 2 ^ k' = 2 * 2 ^ (k' - 1)) by (rewrite <- Z.pow_succ_r by lia; f_equal; lia).
    assert (J1 : j <= k' - 1). { destruct (Z_le_gt_dec j (k' - 1)); auto. assert (2 ^ (k' - 1) < 2 ^ j) by (apply Z.pow_lt_mono_r; lia). lia. }
    assert (E : forall e, to_s k' (Z.land (to_u k' e) (to_u k' (2 ^ j - 1))) = e mod 2 ^ j).
    { intros e. rewrite (to_u_id k' (2 ^ j - 1)) by lia. rewrite Z.sub_1_r, <- Z.ones_equiv, Z.land_ones by lia. unfold to_u.
      assert (R : (e mod 2 ^ k') mod 2 ^ j = e mod 2 ^ j). { replace (2 ^ k') with (2 ^ j * 2 ^ (k' - j)) by (rewrite <- Z.pow_add_r by lia; f_equal; lia). rewrite Z.rem_mul_r by (try apply Z.pow_nonzero; try apply Z.pow_pos_nonneg; lia). rewrite (Z.mul_comm (2 ^ j)), Z.mod_add by lia. apply Z.mod_mod. lia. }
      rewrite R. pose proof (Z.mod_pos_bound e (2 ^ j) P). apply to_s_id; lia. }
    rewrite (map_ext _ _ E). 
    assert (RG : forall q, 2 ^ j <= 2 ^ (q - 1) -> inr q (map (fun e => e mod 2 ^ j) l)). { intros q Hq. apply Forall_forall. intros z H. apply in_map_iff in H. destruct H as (e & <- & _). pose proof (Z.mod_pos_bound e (2 ^ j) P). lia. }
    assert (FA : forall q, inr q (map (fun e => e mod 2 ^ j) l) -> forallb (fits q) (map (fun e => e mod 2 ^ j) l) = true). { intros q H. apply forallb_forall. intros z Hz. unfold inr in H. rewrite Forall_forall in H. apply H in Hz. unfold fits. lia. }
    destruct (Z.ltb_spec (2 ^ j) 256).
    + assert (2 ^ j <= 2 ^ (8 - 1)). { apply Z.pow_le_mono_r; [lia|]. destruct (Z_le_gt_dec j 7); [lia|]. assert (2 ^ 8 <= 2 ^ j) by (apply Z.pow_le_mono_r; lia). change (2 ^ 8) with 256 in *. lia. }
      rewrite FA by auto. eexists. split; [reflexivity|]. split; [split; auto; apply RG; auto|reflexivity].
    + destruct (Z.ltb_spec (2 ^ j) 65536).
      * assert (2 ^ j <= 2 ^ (16 - 1)). { apply Z.pow_le_mono_r; [lia|]. destruct (Z_le_gt_dec j 15); [lia|]. assert (2 ^ 16 <= 2 ^ j) by (apply Z.pow_le_mono_r; lia). change (2 ^ 16) with 65536 in *. lia. }
        rewrite FA by auto. eexists. split; [reflexivity|]. split; [split; auto; apply RG; auto|reflexivity].
      * eexists. split; [reflexivity|]. split; [split; auto; apply RG; auto|reflexivity].
Qed.
